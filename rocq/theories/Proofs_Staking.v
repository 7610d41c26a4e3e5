(** The proofs of the theorems and examples of [Props_Staking.v]. *)
From Verif Require Export ToyStaking.
From Coq Require Import Lia ZifyBool ZifyN ZifyNat.
Open Scope N_scope.

Lemma C40_escrow_accounting_proof K log s p :
  forall (Hrun : stk_run K log s),
  exists burned, burned <= list_total (ev_slashed p) (events log) /\
    list_total (ev_requested p) (events log)
    = ep_escrow (pool_of s p) + list_total (ev_paid p) (events log) + burned.
Proof.
  intros H. destruct H as [Ha (t & o & g & pa & d & s0 & Hal & Hi & Hh) Ho].
  assert (H0 : stk_run K [] s0).
  { constructor; [exact Ha| |constructor]. exists t, o, g, pa, d, s0. split; [exact Hal|]. split; [exact Hi|constructor]. }
  destruct (escrow_history K s0 log s p Hh (inv_run K [] s0 H0) Ho) as (b & Hb & He). exists b. split; [exact Hb|].
  destruct (initial_claims K t o g pa d s0 Hi) as (_ & Hp & _). unfold pool_of at 1 in He. rewrite Hp, lookup_empty in He. exact He.
Qed.

Lemma C40_paid_once_proof K log s a :
  forall (Hrun : stk_run K log s),
  list_total (is_request a) (events log)
  = N.of_nat (length (claims_of s a)) + list_total (is_unstake a) (events log).
Proof.
  intros H. destruct H as [Ha (t & o & g & pa & d & s0 & Hal & Hi & Hh) Ho].
  assert (H0 : stk_run K [] s0).
  { constructor; [exact Ha| |constructor]. exists t, o, g, pa, d, s0. split; [exact Hal|]. split; [exact Hi|constructor]. }
  pose proof (claims_history K s0 log s a Hh (inv_run K [] s0 H0) Ho) as He.
  destruct (initial_claims K t o g pa d s0 Hi) as (Hc & _). unfold claims_of at 1 in He. rewrite Hc, lookup_empty in He. exact He.
Qed.

Lemma C40_accounting_example_proof :
  stk_run toy_sk toy_run4.1 toy_run4.2 /\
  list_total (ev_requested toy_prover) (events toy_run4.1) = 529 /\
  ep_escrow (pool_of toy_run4.2 toy_prover) = 91 /\
  list_total (ev_paid toy_prover) (events toy_run4.1) = 359 /\
  list_total (ev_slashed toy_prover) (events toy_run4.1) = 300 /\
  (list_total (is_request sk_alice) (events toy_run4.1), list_total (is_unstake sk_alice) (events toy_run4.1)) = (1, 1) /\
  (list_total (is_request sk_bob) (events toy_run4.1), length (claims_of toy_run4.2 sk_bob)) = (1, 1%nat).
Proof.
  split; [exact toy_is_run4|]. repeat match goal with |- _ /\ _ => split end; vm_compute; reflexivity.
Qed.

Lemma C40_finish_exact_proof K log s x a s' evs :
  forall (Hrun : stk_run K log s) (Haccepted : staking_run K x (KFinishUnstake a) s = Ok (s', evs)),
  exists done,
    Permutation (claims_of s a) (done ++ claims_of s' a) /\
    Forall (matured K (kx_time x)) done /\ Forall (fun c => ~ matured K (kx_time x) c) (claims_of s' a) /\
    Forall2 (fun c ev => exists prove i, ev = EvUnstake a (bound_to s a) prove i /\
                           i <= claim_value (ep_factor (pool_of s (bound_to s a))) c) done evs /\
    tk_balance (bk_prove (sk_bank s')) a = tk_balance (bk_prove (sk_bank s)) a + list_total ev_prove evs /\
    i_assets K (sk_bank s') + list_total ev_prove evs = i_assets K (sk_bank s) /\
    (forall b, b <> a -> claims_of s' b = claims_of s b /\ bound_to s' b = bound_to s b) /\
    (forall q, q <> bound_to s a -> pool_of s' q = pool_of s q) /\
    (forall b, stake_of (sk_bank s') b = stake_of (sk_bank s) b).
Proof.
  intros Hr H. cbn [staking_run] in H. apply (finish_exact K x a s s' evs (inv_run K log s Hr)); [|exact H].
  apply finish_unstake_ok in H. cbv zeta in H. destruct H as (Hb & _).
  destruct (bound_outside_run K log s a Hr Hb) as [_ [_ H]]. exact H.
Qed.

Lemma C40_finish_example_proof :
  stk_run toy_sk toy_run34.1 toy_run34.2 /\
  (exists s', staking_run toy_sk (at_ sk_carol 170) (KFinishUnstake sk_alice) toy_run34.2
              = Ok (s', [EvUnstake sk_alice toy_prover 370 359])) /\
  tk_balance (bk_prove (sk_bank toy_run4.2)) sk_alice = tk_balance (bk_prove (sk_bank toy_run34.2)) sk_alice + 370.
Proof.
  split; [exact toy_is_run34|]. split; [apply run_events_ok; vm_compute; reflexivity|vm_compute; reflexivity].
Qed.

Lemma C40_claims_bounded_proof K log s a :
  forall (Hrun : stk_run K log s), N.of_nat (length (claims_of s a)) <= ke_max_requests K.
Proof.
  intros H. destruct H as [Ha (t & o & g & pa & d & s0 & Hal & Hi & Hh) Ho].
  assert (H0 : stk_run K [] s0).
  { constructor; [exact Ha| |constructor]. exists t, o, g, pa, d, s0. split; [exact Hal|]. split; [exact Hi|constructor]. }
  apply (claims_bounded K s0 log s a Hh (inv_run K [] s0 H0) Ho).
  destruct (initial_claims K t o g pa d s0 Hi) as (Hc & _). unfold claims_of. rewrite Hc, lookup_empty. apply N.le_0_l.
Qed.

Lemma C40_request_example_proof :
  stk_run toy_sk toy_run3b.1 toy_run3b.2 /\
  (exists s', staking_run toy_sk (at_ sk_bob 80) (KRequestUnstake 100) toy_run3b.2
              = Ok (s', [EvUnstakeRequest sk_bob toy_prover 100 90])) /\
  share_worth toy_run3b.2 toy_prover 100 = 90 /\
  ep_factor (pool_of toy_run3b.2 toy_prover) = 818181818181818181818181818 /\
  (length (claims_of toy_run3.2 sk_bob), ke_max_requests toy_sk) = (1%nat, 10).
Proof.
  split; [exact toy_is_run3b|]. split; [apply run_events_ok; vm_compute; reflexivity|].
  repeat match goal with |- _ /\ _ => split end; vm_compute; reflexivity.
Qed.

Lemma C40_slash_once_proof K log s p i :
  forall (Hrun : stk_run K log s), list_total (resolves p i) log <= 1.
Proof.
  intros H. destruct H as [Ha (t & o & g & pa & d & s0 & Hal & Hi & Hh) Ho].
  assert (H0 : stk_run K [] s0).
  { constructor; [exact Ha| |constructor]. exists t, o, g, pa, d, s0. split; [exact Hal|]. split; [exact Hi|constructor]. }
  pose proof (resolved_history K s0 log s p i Hh (inv_run K [] s0 H0) Ho) as He.
  destruct (resolved_at s0 p i); lia.
Qed.

Lemma C40_slash_example_proof :
  stk_run toy_sk toy_run2.1 toy_run2.2 /\
  (exists s', staking_run toy_sk (at_ sk_keeper 70) (KFinishSlash toy_prover 0) toy_run2.2
              = Ok (s', [EvSlash toy_prover 308 300 0])) /\
  (ep_escrow (pool_of toy_run2.2 toy_prover), ep_escrow (pool_of toy_run3b.2 toy_prover)) = (439, 360) /\
  list_total (resolves toy_prover 0) toy_run4.1 = 1.
Proof.
  split; [exact toy_is_run2|]. split; [apply run_events_ok; vm_compute; reflexivity|].
  split; vm_compute; reflexivity.
Qed.

Lemma C41_available_exact_proof K log s x available :
  forall (Hrun : stk_run K log s) (Horder : in_order 0 log (kx_time x))
    (Havailable : max_dispense x (sk_dispensing s) = Ok available),
  available + list_total ev_dispensed (events log) = earned log (kx_time x).
Proof.
  intros Hr Ho H. destruct (run_rewards K log s (kx_time x) Hr Ho) as (H1 & H2 & H3 & H4).
  unfold max_dispense in H. sk_inv. subst. lia.
Qed.

Lemma C41_dispense_exact_proof K log s x amount s' evs :
  forall (Hrun : stk_run K log s) (Horder : in_order 0 log (kx_time x))
    (Haccepted : staking_run K x (KDispense amount) s = Ok (s', evs)),
  exists paid, let before := list_total ev_dispensed (events log) in
    evs = [EvDispense paid] /\ 0 < paid /\ kx_sender x = dp_dispenser (sk_dispensing s) /\
    before + paid <= earned log (kx_time x) /\
    (if amount =? 2 ^ 256 - 1 then before + paid = earned log (kx_time x) else paid = amount) /\
    tk_balance (bk_prove (sk_bank s')) (ke_self K) + paid = tk_balance (bk_prove (sk_bank s)) (ke_self K) /\
    i_assets K (sk_bank s') = i_assets K (sk_bank s) + paid /\
    (forall a, outside K a -> tk_balance (bk_prove (sk_bank s')) a = tk_balance (bk_prove (sk_bank s)) a) /\
    bk_iprove (sk_bank s') = bk_iprove (sk_bank s) /\ bk_isupply (sk_bank s') = bk_isupply (sk_bank s) /\
    (forall a, stake_of (sk_bank s') a = stake_of (sk_bank s) a) /\
    sk_claims s' = sk_claims s /\ sk_slashes s' = sk_slashes s /\ sk_pools s' = sk_pools s /\
    sk_bound s' = sk_bound s /\ sk_registry s' = sk_registry s.
Proof.
  intros Hr Ho H. destruct (run_rewards K log s (kx_time x) Hr Ho) as (H1 & H2 & H3 & H4).
  exact (dispense_exact K x amount s s' evs _ _ (skr_addresses K log s Hr) H1 H2 H3 H).
Qed.

Lemma C41_example_proof :
  stk_run toy_sk toy_run1.1 toy_run1.2 /\ in_order 0 toy_run1.1 50 /\
  list_total ev_dispensed (events toy_run1.1) = 50 /\ earned toy_run1.1 50 = 140 /\
  max_dispense (at_ sk_giver 50) (sk_dispensing toy_run1.2) = Ok 90 /\
  match staking_run toy_sk (at_ sk_giver 50) (KDispense (2 ^ 256 - 1)) toy_run1.2 with
  | Ok (_, evs) => evs = [EvDispense 90]
  | Err _ => False
  end.
Proof.
  split; [exact toy_is_run1|]. split; [apply in_orderb_ok; vm_compute; reflexivity|].
  repeat match goal with |- _ /\ _ => split end; vm_compute; reflexivity.
Qed.

Lemma C47_example_proof :
  let r := stk_exec toy_sk toy_more toy_run1.2 in
  stk_run toy_sk toy_run1.1 toy_run1.2 /\ stk_history toy_sk toy_run1.2 r.1 r.2 /\
  Forall (by_outsider toy_sk) r.1 /\ Forall (no_request_by sk_bob) r.1 /\
  Forall (no_slash_of (bound_to toy_run1.2 sk_bob)) r.1 /\
  staked toy_sk sk_bob toy_run1.2 = Ok 566 /\ staked toy_sk sk_bob r.2 = Ok 624.
Proof.
  cbv zeta. split; [exact toy_is_run1|]. split; [apply (stk_exec_ok _ toy_more), surjective_pairing|].
  split; [apply by_outsiderb_ok; vm_compute; reflexivity|].
  split; [apply no_request_byb_ok; vm_compute; reflexivity|].
  split; [apply no_slash_ofb_ok; vm_compute; reflexivity|]. split; vm_compute; reflexivity.
Qed.

Lemma C47_stake_example_proof :
  stk_run toy_sk toy_run1.1 toy_run1.2 /\
  (exists s', staking_run toy_sk (at_ sk_bob 161) (KStake toy_prover 77) toy_run1.2
              = Ok (s', [EvStake sk_bob toy_prover 77 74 67])) /\
  preview_unstake toy_sk toy_prover 67
    (sk_bank (stk_exec toy_sk [SCall (at_ sk_bob 161) (KStake toy_prover 77)] toy_run1.2).2) = Ok 75.
Proof.
  split; [exact toy_is_run1|]. split; [apply run_events_ok; vm_compute; reflexivity|vm_compute; reflexivity].
Qed.

Lemma C47_stake_exact_proof K log s x c s' evs a p n :
  forall (Hrun : stk_run K log s) (Houtside : by_outsider K (KAccepted x c evs s'))
    (Hcall : c = KStake p n /\ a = kx_sender x \/ c = KPermitAndStake p a n)
    (Haccepted : staking_run K x c s = Ok (s', evs)),
  exists iprove sh, evs = [EvStake a p n iprove sh] /\ iprove <> 0 /\ sh <> 0 /\ ke_min_stake K <= n /\
    iprove = issued n (i_assets K (sk_bank s)) (bk_isupply (sk_bank s)) /\
    sh = issued iprove (v_assets p (sk_bank s)) (stakes_on s p) /\
    p ∈ rg_provers (sk_registry s) /\ p ∉ rg_deactivated (sk_registry s) /\
    tk_balance (bk_prove (sk_bank s')) a + n = tk_balance (bk_prove (sk_bank s)) a /\
    i_assets K (sk_bank s') = i_assets K (sk_bank s) + n /\
    (forall y, y <> a -> y <> ke_iprove K ->
       tk_balance (bk_prove (sk_bank s')) y = tk_balance (bk_prove (sk_bank s)) y) /\
    (forall y, stake_of (sk_bank s') y = stake_of (sk_bank s) y + if y =? a then sh else 0) /\
    bound_to s' a = p /\ (bound_to s a = 0 \/ bound_to s a = p) /\
    iprove_worth K s' (share_worth s' p sh) <= n.
Proof.
  intros Hr Ho Hc H. pose proof (inv_run K log s Hr) as Hinv.
  pose proof (inv_call K x c s s' evs Hinv Ho H) as Hinv'.
  destruct (stake_exact K x c s s' evs a p n Hinv Ho Hc H) as (iprove & sh & He & Hrest). exists iprove, sh.
  unfold iprove_worth, share_worth. rewrite <- (ki_shares K s Hinv p), <- (ki_shares K s' Hinv' p). exact (conj He Hrest).
Qed.

Lemma C48_claims_backed_proof K log s p :
  forall (Hrun : stk_run K log s) (Hprover : p <> 0) (Hnotwiped : Forall (not_wiped p) log),
  all_claims_value s p <= ep_escrow (pool_of s p).
Proof.
  intros Hr Hp Hw. destruct multiple_exists as [L HL].
  exact (backed_value K L p s HL (inv_run K log s Hr) (backed_run K L p log s HL Hp Hr Hw)).
Qed.

Lemma C48_paid_in_full_proof K log s x a s' evs :
  forall (Hrun : stk_run K log s) (Hnotwiped : Forall (not_wiped (bound_to s a)) log)
    (Haccepted : staking_run K x (KFinishUnstake a) s = Ok (s', evs)),
  exists done,
    Permutation (claims_of s a) (done ++ claims_of s' a) /\
    Forall (matured K (kx_time x)) done /\ Forall (fun c => ~ matured K (kx_time x) c) (claims_of s' a) /\
    Forall (fun c => claim_value (ep_factor (pool_of s (bound_to s a))) c <= uc_escrow c) done /\
    Forall2 (fun c ev => exists prove,
      ev = EvUnstake a (bound_to s a) prove (claim_value (ep_factor (pool_of s (bound_to s a))) c) /\
      iprove_worth K s (claim_value (ep_factor (pool_of s (bound_to s a))) c) <= prove) done evs.
Proof.
  intros Hr Hw H. destruct multiple_exists as [L HL]. cbn [staking_run] in H. pose proof (inv_run K log s Hr) as Hinv.
  assert (Hb : bound_to s a <> 0) by (apply finish_unstake_ok in H; cbv zeta in H; destruct H as (Hb & _); exact Hb).
  pose proof (backed_run K L (bound_to s a) log s HL Hb Hr Hw) as Hbk.
  destruct (finish_backed_exact K L x a s s' evs HL Hinv Hbk H) as (done & Hp & Hd & Hl & He).
  exists done. split; [exact Hp|]. split; [exact Hd|]. split; [exact Hl|]. split; [|exact He].
  apply Forall_forall. intros c Hc. apply (value_le_escrow K L (bound_to s a) s a c Hinv Hbk eq_refl).
  rewrite Hp. apply elem_of_app. now left.
Qed.

Lemma C48_example_proof :
  stk_run toy_sk toy_run34.1 toy_run34.2 /\ Forall (not_wiped toy_prover) toy_run34.1 /\
  all_claims_value toy_run34.2 toy_prover = 449 /\ ep_escrow (pool_of toy_run34.2 toy_prover) = 450 /\
  stk_run toy_sk toy_run1.1 toy_run1.2 /\ Forall (no_slash_of toy_prover) toy_run1.1 /\
  map (claim_value (ep_factor (pool_of toy_run1.2 toy_prover))) (claims_of toy_run1.2 sk_alice) = [439].
Proof.
  split; [exact toy_is_run34|]. split; [apply not_wipedb_ok; vm_compute; reflexivity|].
  split; [vm_compute; reflexivity|]. split; [vm_compute; reflexivity|]. split; [exact toy_is_run1|].
  split; [apply no_slash_ofb_ok; vm_compute; reflexivity|vm_compute; reflexivity].
Qed.

Lemma C49_paid_le_escrowed_refuted_proof :
  exists K log s x a c s' prove paid,
    stk_run K log s /\ claims_of s a = [c] /\
    staking_run K x (KFinishUnstake a) s = Ok (s', [EvUnstake a (bound_to s a) prove paid]) /\
    uc_escrow c < paid /\ ep_escrow (pool_of s' (bound_to s a)) = 0 /\
    exists b c', claims_of s' b = [c'] /\ bound_to s' b = bound_to s a /\ uc_escrow c' = paid.
Proof.
  set (K := toy_sk). set (s := toy_run_wiped.2). set (x := at_ sk_alice 200).
  set (s' := match staking_run K x (KFinishUnstake sk_alice) s with Ok (s', _) => s' | Err _ => s end).
  exists K, toy_run_wiped.1, s, x, sk_alice, (UnstakeClaim 500 (5 * 10 ^ 26) 23), s', 1000, 1000.
  split; [exact toy_is_wiped|]. split; [vm_compute; reflexivity|]. split.
  - unfold s'. destruct (run_events_ok K x (KFinishUnstake sk_alice) s [EvUnstake sk_alice (bound_to s sk_alice) 1000 1000]) as [s1 H];
      [vm_compute; reflexivity|]. rewrite H. reflexivity.
  - split; [vm_compute; reflexivity|]. split; [vm_compute; reflexivity|].
    exists sk_bob, (UnstakeClaim 1000 (10 ^ 27) 27). repeat split; vm_compute; reflexivity.
Qed.

Lemma C50_receipts_match_proof K log s :
  forall (Hrun : stk_run K log s),
  (forall p, shares_of (sk_bank s) p = stakes_on s p) /\
  bk_stsupply (sk_bank s) = map_total (fun _ n => n) (bk_stakes (sk_bank s)) /\
  (forall a, stake_of (sk_bank s) a <> 0 \/ claims_of s a <> [] ->
     bound_to s a <> 0 /\ bound_to s a ∈ rg_provers (sk_registry s)).
Proof.
  intros Hr. pose proof (inv_run K log s Hr) as Hinv. split; [exact (ki_shares K s Hinv)|].
  split; [exact (proj1 (ki_stsupply K s Hinv))|]. intros a Ha.
  destruct (N.eq_dec (bound_to s a) 0) as [E|E].
  - destruct (ki_unbound K s Hinv a E). tauto.
  - split; [exact E|exact (ki_bound K s Hinv a E)].
Qed.

Lemma C50_example_proof :
  stk_run toy_sk toy_run1.1 toy_run1.2 /\ shares_of (sk_bank toy_run1.2) toy_prover = 1100 /\
  stakes_on toy_run1.2 toy_prover = 1100 /\
  (stake_of (sk_bank toy_run1.2) sk_alice, stake_of (sk_bank toy_run1.2) sk_bob) = (600, 500).
Proof.
  split; [exact toy_is_run1|]. repeat match goal with |- _ /\ _ => split end; vm_compute; reflexivity.
Qed.

Lemma C51_finish_accepted_proof K log s x a :
  forall (Hrun : stk_run K log s) (Hclaims : claims_of s a <> [])
    (Hnotwiped : Forall (not_wiped (bound_to s a)) log) (Hnopending : ~ slash_pending s (bound_to s a))
    (Htimes : forall c, c ∈ claims_of s a -> uc_time c + ke_unstake_period K < two256)
    (Hassets : i_assets K (sk_bank s) < two256),
  exists s' evs, staking_run K x (KFinishUnstake a) s = Ok (s', evs).
Proof.
  intros Hr Hc Hw Hp Ht Ha. destruct multiple_exists as [L HL]. pose proof (inv_run K log s Hr) as Hinv.
  assert (Hb : bound_to s a <> 0) by (intros E; destruct (ki_unbound K s Hinv a E); contradiction).
  destruct (bound_outside_run K log s a Hr Hb) as [Ha0 Ho].
  exact (finish_unstake_live K L x a s HL Hinv Ha0 Ho (backed_run K L _ log s HL Hb Hr Hw) Hb Hc Hp Ht Ha).
Qed.

Lemma C51_request_accepted_proof K log s x n :
  forall (Hrun : stk_run K log s) (Hpositive : n <> 0) (Hstake : n <= stake_of (sk_bank s) (kx_sender x))
    (Hroom : N.of_nat (length (claims_of s (kx_sender x))) < ke_max_requests K)
    (Hroom64 : N.of_nat (length (claims_of s (kx_sender x))) < two64)
    (Hnopending : ~ slash_pending s (bound_to s (kx_sender x)))
    (Hsupply : bk_stsupply (sk_bank s) + 1 < two256),
  exists s' evs, staking_run K x (KRequestUnstake n) s = Ok (s', evs).
Proof.
  intros Hr Hn Hs Hm Hm64 Hp Hsup. pose proof (inv_run K log s Hr) as Hinv.
  assert (Hb : bound_to s (kx_sender x) <> 0) by (intros E; destruct (ki_unbound K s Hinv _ E); lia).
  destruct (bound_outside_run K log s _ Hr Hb) as [Ha0 _].
  exact (request_unstake_live K x n s Hinv Ha0 Hn Hs Hm Hm64 Hp Hsup).
Qed.

Lemma C51_example_proof :
  stk_run toy_sk toy_run34.1 toy_run34.2 /\ ~ slash_pending toy_run34.2 toy_prover /\
  length (claims_of toy_run34.2 sk_alice) = 1%nat /\ bound_to toy_run34.2 sk_alice = toy_prover /\
  Forall (not_wiped toy_prover) toy_run34.1 /\
  (map (fun c => uc_time c + ke_unstake_period toy_sk <? two256) (claims_of toy_run34.2 sk_alice),
   i_assets toy_sk (sk_bank toy_run34.2) <? two256) = ([true], true) /\
  (stake_of (sk_bank toy_run34.2) sk_alice, bk_stsupply (sk_bank toy_run34.2)) = (600, 1000) /\
  stk_run toy_sk toy_run3.1 toy_run3.2 /\ is_prover toy_run3.2 toy_prover = true /\
  slashes_of toy_run3.2 toy_prover !! 1%nat = Some (SlashClaim 40 81 false).
Proof.
  split; [exact toy_is_run34|]. split; [apply resolvedb_ok; vm_compute; reflexivity|].
  split; [vm_compute; reflexivity|]. split; [vm_compute; reflexivity|].
  split; [apply not_wipedb_ok; vm_compute; reflexivity|]. split; [vm_compute; reflexivity|].
  split; [vm_compute; reflexivity|]. split; [exact toy_is_run3|]. split; vm_compute; reflexivity.
Qed.

Lemma C51_dispense_accepted_proof K log s x n :
  forall (Hrun : stk_run K log s) (Horder : in_order 0 log (kx_time x))
    (Hdispenser : kx_sender x = dp_dispenser (sk_dispensing s)) (Hpositive : n <> 0)
    (Hearned : list_total ev_dispensed (events log) + n <= earned log (kx_time x))
    (Hfits : earned log (kx_time x) < 2 ^ 256 - 1)
    (Hheld : n <= tk_balance (bk_prove (sk_bank s)) (ke_self K)),
  exists s' evs, staking_run K x (KDispense n) s = Ok (s', evs).
Proof.
  intros Hr Ho Hd Hn He Hf Hh. destruct (run_rewards K log s (kx_time x) Hr Ho) as (H1 & H2 & H3 & H4).
  exact (dispense_live K x n s _ _ (skr_addresses K log s Hr) H1 H2 H3 Hd Hn He Hf Hh).
Qed.

Lemma C51_dispense_example_proof :
  stk_run toy_sk toy_run1.1 toy_run1.2 /\ in_order 0 toy_run1.1 50 /\
  dp_dispenser (sk_dispensing toy_run1.2) = sk_giver /\
  list_total ev_dispensed (events toy_run1.1) + 90 = earned toy_run1.1 50 /\
  (90 <=? tk_balance (bk_prove (sk_bank toy_run1.2)) (ke_self toy_sk)) = true.
Proof.
  split; [exact toy_is_run1|]. split; [apply in_orderb_ok; vm_compute; reflexivity|].
  repeat match goal with |- _ /\ _ => split end; vm_compute; reflexivity.
Qed.

Lemma C52_pending_slash_freezes_proof K log s p x c :
  forall (Hrun : stk_run K log s) (Hpending : slash_pending s p)
    (Hcall : (exists n, c = KStake p n) \/ (exists a n, c = KPermitAndStake p a n) \/
             (exists n, c = KRequestUnstake n /\ bound_to s (kx_sender x) = p) \/
             (exists a, c = KFinishUnstake a /\ bound_to s a = p)),
  exists e, staking_run K x c s = Err e.
Proof.
  intros Hr Hp Hc. pose proof (inv_run K log s Hr) as Hinv. apply (pending_iff K s p Hinv) in Hp.
  destruct (staking_run K x c s) as [[s' evs]|e] eqn:H; [exfalso|eauto].
  destruct Hc as [(n & ->)|[(a & n & ->)|[(n & -> & Hb)|(a & -> & Hb)]]]; cbn [staking_run] in H.
  - apply stake_call_ok in H as (t & _ & _ & H). apply stake_for_ok in H as (_ & _ & _ & H & _).
    change (pending_of s p = 0) in H. lia.
  - apply permit_stake_ok in H as (t1 & t & _ & _ & _ & H). apply stake_for_ok in H as (_ & _ & _ & H & _).
    change (pending_of s p = 0) in H. lia.
  - unfold k_request_unstake, no_slash_requests in H. rewrite Hb in H. sk_inv.
    match goal with H : (0 <? _) = false |- _ => apply N.ltb_ge in H; lia end.
  - apply finish_unstake_ok in H. cbv zeta in H. rewrite Hb in H. destruct H as (_ & _ & H & _). lia.
Qed.

Lemma C52_example_proof :
  stk_run toy_sk toy_run2.1 toy_run2.2 /\ slash_pending toy_run2.2 toy_prover /\
  run_events toy_sk (at_ sk_bob 60) (KStake toy_prover 10) toy_run2.2 = Err KProverHasSlashRequest /\
  run_events toy_sk (at_ sk_bob 60) (KRequestUnstake 10) toy_run2.2 = Err KProverHasSlashRequest /\
  run_events toy_sk (at_ sk_bob 600) (KFinishUnstake sk_alice) toy_run2.2 = Err KProverHasSlashRequest.
Proof.
  split; [exact toy_is_run2|]. split.
  - exists (SlashClaim 300 51 false). split; [|reflexivity].
    assert (E : slashes_of toy_run2.2 toy_prover = [SlashClaim 300 51 false]) by (vm_compute; reflexivity).
    rewrite E. left.
  - repeat match goal with |- _ /\ _ => split end; vm_compute; reflexivity.
Qed.

Lemma C54_one_prover_each_proof K log s :
  forall (Hrun : stk_run K log s),
  (forall o p, rg_owners (sk_registry s) !! o = Some p -> p ∈ rg_provers (sk_registry s)) /\
  (forall o o' p, rg_owners (sk_registry s) !! o = Some p -> rg_owners (sk_registry s) !! o' = Some p -> o = o') /\
  (forall p, p ∈ rg_provers (sk_registry s) -> exists o, rg_owners (sk_registry s) !! o = Some p).
Proof.
  intros H. destruct H as [Ha (t & o & g & pa & d & s0 & Hal & Hi & Hh) Ho].
  assert (H0 : stk_run K [] s0).
  { constructor; [exact Ha| |constructor]. exists t, o, g, pa, d, s0. split; [exact Hal|]. split; [exact Hi|constructor]. }
  assert (Hw : owners_ok s); [|destruct Hw; auto].
  apply (owners_history K s0 log s Hh (inv_run K [] s0 H0) Ho). exact (initial_owners K t o g pa d s0 Hi).
Qed.

Lemma C54_example_proof :
  let after := (stk_exec toy_sk [SCall (at_ sk_keeper 22) (KFinishSlash toy_prover 0)] toy_run_dust.2).2 in
  stk_run toy_sk toy_run_dust.1 toy_run_dust.2 /\
  (is_deactivated toy_run_dust.2 toy_prover, is_deactivated after toy_prover) = (false, true) /\
  run_events toy_sk (at_ sk_bob 23) (KStake toy_prover 100) toy_run_dust.2 = Err KProverHasSlashRequest /\
  run_events toy_sk (at_ sk_bob 23) (KStake toy_prover 100) after = Err KProverNotActive /\
  run_events toy_sk (at_ sk_carol 23) (KCreateProver 7) after = Err KProverExists /\
  run_events toy_sk (at_ sk_bob 23) (KCreateProver 10001) after = Err KInvalidFee /\
  run_events toy_sk (at_ sk_bob 23) (KCreateProver 10000) after = Ok [].
Proof.
  cbv zeta. split; [exact toy_is_dust|]. repeat match goal with |- _ /\ _ => split end; vm_compute; reflexivity.
Qed.
