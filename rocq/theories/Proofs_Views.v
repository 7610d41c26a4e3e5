(** Proofs of the properties in [Props_Views.v]. *)
From Verif Require Export StakingViews StakingRulesLive ToyStaking.
From Coq Require Import Lia ZifyBool ZifyN ZifyNat.
Open Scope N_scope.

Lemma C67_views_exact_proof K log s :
  forall (Hrun : stk_run K log s) (Hvault : tk_balance (bk_prove (sk_bank s)) (ke_iprove K) < 2 ^ 256)
    (Hsupply : bk_stsupply (sk_bank s) + 1 < 2 ^ 256),
  (forall a, staked K a s = Ok (iprove_worth K s (share_worth s (bound_to s a) (stake_of (sk_bank s) a)))) /\
  (forall p, prover_staked K p s = Ok (iprove_worth K s (tk_balance (bk_iprove (sk_bank s)) p))) /\
  (forall p n, n <= stakes_on s p ->
     preview_unstake K p n (sk_bank s) = Ok (iprove_worth K s (share_worth s p n))).
Proof.
  intros Hr Hv Hs. pose proof (inv_run K log s Hr) as Hinv. split; [|split].
  - intros a. exact (staked_exact K s a Hinv Hs Hv).
  - intros p. exact (prover_staked_exact K s p Hinv Hv).
  - intros p n Hn. exact (preview_unstake_exact K s p n Hinv Hs Hv Hn).
Qed.

Lemma C67_pending_exact_proof K log s a :
  forall (Hrun : stk_run K log s) (Hvault : tk_balance (bk_prove (sk_bank s)) (ke_iprove K) < 2 ^ 256)
    (Hnotwiped : Forall (not_wiped (bound_to s a)) log),
  unstake_pending K a s = Ok (pending_worth K s a).
Proof.
  intros Hr Hv Hw. destruct multiple_exists as [L HL].
  apply (unstake_pending_live K L s a HL (inv_run K log s Hr)); [|exact Hv].
  intros Hb. exact (backed_run K L _ log s HL Hb Hr Hw).
Qed.

Lemma C67_pending_paid_proof K log s x a s' evs :
  forall (Hrun : stk_run K log s) (Houtside : a <> ke_iprove K) (Hnotwiped : Forall (not_wiped (bound_to s a)) log)
    (Haccepted : staking_run K x (KFinishUnstake a) s = Ok (s', evs))
    (Hmatured : Forall (matured K (kx_time x)) (claims_of s a)),
  claims_of s' a = [] /\ pending_worth K s a <= list_total ev_prove evs /\
  list_total ev_prove evs
  <= iprove_worth K s (list_total (claim_value (ep_factor (pool_of s (bound_to s a)))) (claims_of s a)).
Proof.
  intros Hr Ho Hw H Hm. destruct multiple_exists as [L HL]. cbn [staking_run] in H.
  assert (Hb : bound_to s a <> 0) by (apply finish_unstake_ok in H; cbv zeta in H; destruct H as (Hb & _); exact Hb).
  exact (pending_paid K L x a s s' evs HL (inv_run K log s Hr) Ho (backed_run K L _ log s HL Hb Hr Hw) H Hm).
Qed.

Lemma answers_total {X E} (f : X -> result N E) (g : X -> N) l vs :
  (forall x v, f x = Ok v -> v = g x) -> Forall2 (fun x v => f x = Ok v) l vs ->
  list_total (fun v => v) vs = list_total g l.
Proof.
  intros Hf H. induction H as [|x v l vs Hx _ IH]; [reflexivity|]. rewrite !list_total_cons, IH.
  now rewrite (Hf x v Hx).
Qed.

Lemma C67_stakes_covered_proof K log s p stakers values total :
  forall (Hrun : stk_run K log s) (Hdistinct : NoDup stakers)
    (Hanswers : Forall2 (fun a v => bound_to s a = p /\ staked K a s = Ok v) stakers values)
    (Htotal : prover_staked K p s = Ok total),
  list_total (fun v => v) values <= total.
Proof.
  intros Hr Hn Ha Ht. pose proof (inv_run K log s Hr) as Hinv. rewrite (prover_staked_value K s p total Ht).
  assert (Hb : Forall (fun a => bound_to s a = p) stakers).
  { clear -Ha. induction Ha as [|a v l vs [E _] _ IH]; constructor; assumption. }
  assert (Hs : Forall2 (fun a v => staked K a s = Ok v) stakers values).
  { clear -Ha. induction Ha as [|a v l vs [_ E] _ IH]; constructor; assumption. }
  rewrite (answers_total _ _ _ _ (fun a v => staked_value K s a v Hinv) Hs).
  rewrite <- (stakes_covered K s p stakers Hinv Hn Hb). apply list_total_le. intros a Ha'.
  rewrite Forall_forall in Hb. rewrite (Hb a Ha'). reflexivity.
Qed.

Lemma C67_provers_covered_proof K log s holders values :
  forall (Hrun : stk_run K log s) (Hdistinct : NoDup holders)
    (Hanswers : Forall2 (fun p v => prover_staked K p s = Ok v) holders values),
  list_total (fun v => v) values <= tk_balance (bk_prove (sk_bank s)) (ke_iprove K).
Proof.
  intros Hr Hn Ha. rewrite (answers_total _ _ _ _ (fun p v => prover_staked_value K s p v) Ha).
  exact (provers_covered K s holders (inv_run K log s Hr) Hn).
Qed.

(** Before Alice's two claims are paid. *)
Definition toy_run_two := stk_exec toy_sk (toy_steps1 ++ take 2 toy_more) toy_sk0.
Lemma toy_is_two : stk_run toy_sk toy_run_two.1 toy_run_two.2.
Proof. apply (toy_sk_run (toy_steps1 ++ take 2 toy_more)); [apply surjective_pairing|vm_compute; reflexivity]. Qed.

Definition maturedb (K : staking_env) (now : N) (c : unstake_claim) : bool := uc_time c + ke_unstake_period K <=? now.
Lemma maturedb_ok K now c : maturedb K now c = true -> matured K now c.
Proof. unfold maturedb, matured. lia. Qed.

Lemma C67_views_example_proof :
  stk_run toy_sk toy_run34.1 toy_run34.2 /\
  tk_balance (bk_prove (sk_bank toy_run34.2)) (ke_iprove toy_sk) = 1392 /\
  Forall2 (fun a v => bound_to toy_run34.2 a = toy_prover /\ staked toy_sk a toy_run34.2 = Ok v)
    [sk_alice; sk_bob] [556; 371] /\
  prover_staked toy_sk toy_prover toy_run34.2 = Ok 927 /\
  prover_staked toy_sk (ke_self toy_sk) toy_run34.2 = Ok 463 /\
  Forall (not_wiped toy_prover) toy_run34.1 /\
  unstake_pending toy_sk sk_alice toy_run34.2 = Ok 370 /\ unstake_pending toy_sk sk_bob toy_run34.2 = Ok 92.
Proof.
  split; [exact toy_is_run34|]. split; [vm_compute; reflexivity|]. split.
  { constructor; [split; vm_compute; reflexivity|]. constructor; [split; vm_compute; reflexivity|]. constructor. }
  split; [vm_compute; reflexivity|]. split; [vm_compute; reflexivity|].
  split; [apply not_wipedb_ok; vm_compute; reflexivity|]. split; vm_compute; reflexivity.
Qed.

Lemma C67_pending_example_proof :
  stk_run toy_sk toy_run_two.1 toy_run_two.2 /\ Forall (not_wiped (bound_to toy_run_two.2 sk_alice)) toy_run_two.1 /\
  Forall (matured toy_sk 160) (claims_of toy_run_two.2 sk_alice) /\
  (exists s', staking_run toy_sk (at_ sk_carol 160) (KFinishUnstake sk_alice) toy_run_two.2
     = Ok (s', [EvUnstake sk_alice toy_prover 496 439; EvUnstake sk_alice toy_prover 373 330])) /\
  unstake_pending toy_sk sk_alice toy_run_two.2 = Ok 869.
Proof.
  split; [exact toy_is_two|]. split; [apply not_wipedb_ok; vm_compute; reflexivity|].
  split; [apply (forallb_all (maturedb toy_sk 160)); [apply maturedb_ok|vm_compute; reflexivity]|].
  split; [apply run_events_ok; vm_compute; reflexivity|vm_compute; reflexivity].
Qed.

(** ** Rules *)

Lemma C68_rules_followed_proof K log s x c s' evs :
  forall (Hrun : stk_run K log s) (Houtside : by_outsider K (KAccepted x c evs s'))
    (Haccepted : staking_run K x c s = Ok (s', evs)),
  exists w, rule K x (picture_of s) c w evs /\ alike w (picture_of s').
Proof. intros Hr Ho H. exact (rules_followed K x c s s' evs (inv_run K log s Hr) Ho H). Qed.

Definition moderateb (K : staking_env) (x : staking_ctx) (s : staking) : bool :=
  (tk_balance (bk_prove (sk_bank s)) (ke_iprove K) <? 2 ^ 256) && (bk_stsupply (sk_bank s) + 1 <? 2 ^ 256)
  && (kx_time x <? 2 ^ 256)
  && forallb (fun e => forallb (fun c => (uc_time c + ke_unstake_period K <? 2 ^ 256)
        && (claim_value (ep_factor (pool_of s (bound_to s (fst e)))) c <? 2 ^ 256)) (snd e)) (map_to_list (sk_claims s))
  && (bk_isupply (sk_bank s) * 10 ^ 18 <? 2 ^ 256) && (earned_now x (sk_dispensing s) <? 2 ^ 256).
Lemma moderateb_ok K x log s : stk_run K log s -> moderateb K x s = true -> moderate K x (picture_of s).
Proof.
  intros Hr H. unfold moderateb in H. repeat (apply andb_true_iff in H as [H ?]). split.
  - now apply N.ltb_lt.
  - now apply N.ltb_lt.
  - now apply N.ltb_lt.
  - intros a c Hc. cbn [picture_of pc_claims pc_pools pc_bound] in *.
    destruct (sk_claims s !! a) as [l|] eqn:E; cbn [default from_option id] in Hc; [|now apply elem_of_nil in Hc].
    apply elem_of_map_to_list in E. rewrite forallb_forall in H2. apply elem_of_list_In in E, Hc.
    specialize (H2 _ E). cbn [fst snd] in H2. rewrite forallb_forall in H2. specialize (H2 _ Hc).
    apply andb_true_iff in H2 as [Ha Hb]. split; apply N.ltb_lt; assumption.
  - intros p. cbn [picture_of pc_iprove]. pose proof (balance_le_total (bk_iprove (sk_bank s)) p) as Hb.
    destruct (ki_total K s (inv_run K log s Hr)) as [Ht _]. lia.
  - now apply N.ltb_lt.
Qed.

Lemma rule_instance K x c log s evs :
  stk_run K log s -> by_outsiderb K (KAccepted x c evs s) = true -> moderateb K x s = true ->
  run_events K x c s = Ok evs ->
  by_outsider K (KAccepted x c evs s) /\ moderate K x (picture_of s) /\ exists w, rule K x (picture_of s) c w evs.
Proof.
  intros Hr Ho Hm H. assert (Ho' : by_outsider K (KAccepted x c evs s)).
  { assert (Hf : forallb (by_outsiderb K) [KAccepted x c evs s] = true) by (cbn [forallb]; now rewrite Ho).
    apply by_outsiderb_ok in Hf. now apply Forall_cons in Hf as [Hf _]. }
  split; [exact Ho'|]. split; [exact (moderateb_ok K x log s Hr Hm)|].
  apply run_events_ok in H as (s' & Hs). destruct (C68_rules_followed_proof K log s x c s' evs Hr Ho' Hs) as (w & Hw & _).
  now exists w.
Qed.

Lemma C68_example_proof :
  (stk_run toy_sk toy_run34.1 toy_run34.2 /\
   let x := at_ sk_carol 170 in let c := KFinishUnstake sk_alice in let evs := [EvUnstake sk_alice toy_prover 370 359] in
   by_outsider toy_sk (KAccepted x c evs toy_run34.2) /\ moderate toy_sk x (picture_of toy_run34.2) /\
   exists w, rule toy_sk x (picture_of toy_run34.2) c w evs) /\
  (stk_run toy_sk toy_run2.1 toy_run2.2 /\
   let x := at_ sk_keeper 70 in let c := KFinishSlash toy_prover 0 in let evs := [EvSlash toy_prover 308 300 0] in
   by_outsider toy_sk (KAccepted x c evs toy_run2.2) /\ moderate toy_sk x (picture_of toy_run2.2) /\
   exists w, rule toy_sk x (picture_of toy_run2.2) c w evs) /\
  (stk_run toy_sk toy_run1.1 toy_run1.2 /\
   let x := at_ sk_bob 161 in let c := KStake toy_prover 77 in let evs := [EvStake sk_bob toy_prover 77 74 67] in
   by_outsider toy_sk (KAccepted x c evs toy_run1.2) /\ moderate toy_sk x (picture_of toy_run1.2) /\
   exists w, rule toy_sk x (picture_of toy_run1.2) c w evs).
Proof.
  cbv zeta. split; [|split].
  - split; [exact toy_is_run34|]. apply (rule_instance _ _ _ toy_run34.1); [exact toy_is_run34|vm_compute; reflexivity..].
  - split; [exact toy_is_run2|]. apply (rule_instance _ _ _ toy_run2.1); [exact toy_is_run2|vm_compute; reflexivity..].
  - split; [exact toy_is_run1|]. apply (rule_instance _ _ _ toy_run1.1); [exact toy_is_run1|vm_compute; reflexivity..].
Qed.
