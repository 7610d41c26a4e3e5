(** In the deployed system every staker can leave with the whole stake. *)
From Verif Require Import Proofs_Staking Proofs_Governor.
From Verif Require Export Proofs_Network StakingLeave.
From Coq Require Import Lia ZifyBool ZifyN ZifyNat.
Open Scope N_scope.

(** ** Times of claims *)

Lemma claims_times K x c s s' evs a c0 :
  staking_run K x c s = Ok (s', evs) -> c0 ∈ claims_of s' a -> c0 ∈ claims_of s a \/ uc_time c0 = kx_time x.
Proof.
  intros H Hin.
  assert (Hsame : sk_claims s' = sk_claims s -> c0 ∈ claims_of s a) by (intros E; unfold claims_of in *; now rewrite <- E).
  destruct c;
    try (match type of H with staking_run _ _ ?c _ = _ => destruct (quiet_ok K x c s s' evs I H) as (Q0 & _) end; left; exact (Hsame Q0));
    cbn [staking_run] in H.
  - apply stake_call_ok in H as (t & _ & _ & Hs). left. apply Hsame. exact (proj1 (stake_frame _ _ _ _ _ _ _ Hs)).
  - apply permit_stake_ok in H as (t1 & t & _ & _ & _ & Hs). left. apply Hsame. exact (proj1 (stake_frame _ _ _ _ _ _ _ Hs)).
  - apply request_unstake_ok in H. cbv zeta in H.
    destruct H as (_ & _ & _ & _ & _ & b2 & e & _ & -> & _). rewrite claims_set in Hin.
    destruct (N.eqb_spec a (kx_sender x)) as [->|]; [|now left].
    apply elem_of_app in Hin as [Hin|Hin]; [now left|]. apply elem_of_list_singleton in Hin as ->. now right.
  - apply finish_unstake_ok in H. cbv zeta in H.
    destruct H as (_ & _ & _ & done & left & pool & b & _ & _ & _ & Hp & ->). left.
    match type of Hin with c0 ∈ claims_of (if ?z then sk_set_bound _ _ ?s1 else _) a =>
      assert (Hin1 : c0 ∈ claims_of s1 a) by (now destruct z) end.
    rewrite claims_set in Hin1. destruct (N.eqb_spec a staker) as [->|]; [|exact Hin1].
    rewrite Hp. apply elem_of_app. now right.
  - apply finish_slash_ok in H. cbv zeta in H. destruct H as (c & d & burned & _ & _ & _ & _ & _ & H). left. apply Hsame.
    destruct H as [[_ ->]|(b1 & b2 & f & _ & _ & _ & _ & ->)]; reflexivity.
Qed.

Definition claims_before (now : N) (s : staking) : Prop := forall a c, c ∈ claims_of s a -> uc_time c <= now.

Lemma step_before G x c w w' now : staking_step G x c w = Ok w' -> kx_time x = now ->
  claims_before now (w_staking w) -> claims_before now (w_staking w').
Proof.
  intros H Ht Hb. unfold staking_step in H. destruct (staking_run _ _ _ _) as [[s evs]|] eqn:Es; [|discriminate].
  assert (w_staking w' = s) as -> by (gov_inv; reflexivity).
  intros a c0 Hc. destruct (claims_times _ _ _ _ _ _ _ _ Es Hc) as [Hin|E]; [exact (Hb a c0 Hin)|].
  unfold ctx_in in E. cbn [kx_time] in E. lia.
Qed.

Lemma token_before o w w' now : token_step o w = Ok w' -> claims_before now (w_staking w) -> claims_before now (w_staking w').
Proof. intros H Hb. unfold token_step in H. destruct (run_token_op _ _); [|discriminate]. injection H as <-. exact Hb. Qed.

Lemma actions_before G x others now l : forall w w', run_actions G x others l w = Ok w' -> kx_time x = now ->
  claims_before now (w_staking w) -> claims_before now (w_staking w').
Proof.
  induction l as [|a l IH]; intros w w' H Ht Hb; cbn [run_actions] in H; [gov_inv; exact Hb|].
  destruct (run_action G x others a w) as [w1|] eqn:E1; [|discriminate]. cbn [gv_bind] in H.
  apply (IH w1 w' H Ht). clear H IH. destruct a as [c| | | | |o| |]; cbn [run_action] in E1;
    try (gov_inv; exact Hb); [|gov_inv; eapply token_before; eassumption].
  set (x' := StakingCtx _ _ _ _ _ _) in E1.
  assert (Hs : staking_step G x' c w = Ok w1) by (destruct c; try exact E1; discriminate).
  eapply step_before; [exact Hs|exact Ht|exact Hb].
Qed.

Lemma gov_claims G t0 w0 log w now : gov_run G t0 w0 log w now -> claims_before now (w_staking w).
Proof.
  intros H. induction H as [Hs|log w now now' H IH H1 H2|log w now x c w' H IH Ht Hb Hr|log w now x c e H IH Ht Hb Hr].
  - destruct (gs_state _ _ _ Hs) as (p & o & pa & d & s0 & dl & pe & th & qu & g0 & _ & Hi & _ & ->).
    destruct (initial_claims _ _ _ _ _ _ _ Hi) as (E & _). intros a c Hc. unfold claims_of in Hc. cbn [w_staking] in Hc.
    rewrite E in Hc. inversion Hc.
  - intros a c Hc. specialize (IH a c Hc). lia.
  - destruct c as [c|o|d|via l d|via l d|via i f|l d others]; cbn [world_run] in Hr.
    + eapply step_before; eassumption.
    + eapply token_before; eassumption.
    + gov_inv. exact IH.
    + gov_inv. unfold propose in Hr. gov_inv. exact IH.
    + gov_inv. unfold cancel_proposal in Hr. gov_inv. exact IH.
    + gov_inv. unfold cast_vote in Hr. gov_inv. exact IH.
    + unfold execute_proposal in Hr. gov_inv. eapply actions_before; [exact Hr|exact Ht|exact IH].
  - exact IH.
Qed.

(** ** Calls of the staking contract in the network *)

Lemma run_no_slash K log s : stk_run K log s ->
  Forall (fun e => match e with KAccepted x (KRequestSlash _ _) _ _ => kx_sender x <> ke_vapp K | _ => True end) log ->
  forall p, Forall (no_slash_of p) log.
Proof.
  intros [_ (pr & ow & go & pa & di & s0 & _ & Hi & Hh) _] Hf. eapply NetworkStake.unslashed_history; [exact Hh| |exact Hf].
  unfold staking_initialize in Hi. destruct (forallb _ _); [|discriminate]. injection Hi as <-. split; reflexivity.
Qed.

Lemma only_rewards_slash Y klog : Forall (vapp_only_rewards Y) klog ->
  Forall (fun e => match e with KAccepted x (KRequestSlash _ _) _ _ => kx_sender x <> ke_vapp (net_staking Y) | _ => True end) klog.
Proof.
  intros H. eapply Forall_impl; [exact H|]. intros [x c evs s| |]; try exact (fun _ => I). destruct c; try exact (fun _ => I). exact (fun h => h).
Qed.

Lemma net_stk_clean Y t0 n0 log n now : net_run Y t0 n0 log n now ->
  exists klog, stk_run (net_staking Y) klog (w_staking (nw_world n)) /\ forall p, Forall (no_slash_of p) klog.
Proof.
  intros H. destruct (net_stk_run _ _ _ _ _ _ H) as (k & Hk & _ & Vk & _). exists k. split; [exact Hk|].
  apply (run_no_slash _ _ _ Hk), only_rewards_slash, Vk.
Qed.

Lemma acts_outside Y n a : net_acts Y n a -> outside (net_staking Y) a.
Proof. intros (_ & H1 & H2 & _). split; assumption. Qed.

(** The context in which the staking contract runs. *)
Definition stk_ctx (x : net_ctx) (n : network) : staking_ctx :=
  StakingCtx (nx_sender x) (nx_time x) (gv_delay (w_governor (nw_world n))) (gv_period (w_governor (nw_world n))) (nx_permit_valid x) false.

Lemma net_staking_call Y t0 n0 log n now x c : net_run Y t0 n0 log n now -> nx_time x = now -> net_acts Y n (nx_sender x) ->
  match c with KRequestUnstake _ | KFinishUnstake _ => True | _ => False end ->
  match staking_run (net_staking Y) (stk_ctx x n) c (w_staking (nw_world n)) with
  | Ok (s, _) => exists v, net_run_call Y x (CWorld (WStaking c)) n = Ok (Network (nw_vapp n) (World s v (w_governor (nw_world n))))
  | Err e => net_run_call Y x (CWorld (WStaking c)) n = Err (NWorld (GStaking e))
  end.
Proof.
  intros H Ht (A1 & A2 & A3 & A4 & A5 & A6) Hc. destruct (net_gov_run _ _ _ _ _ _ H) as (g & Hg & _).
  assert (Hby : by_anyone (net_gov Y) (nw_world n) (world_ctx (nx_sender x) x false) (WStaking c)).
  { split; [unfold acts, outside; cbn; auto|]. now destruct c. }
  pose proof (C79_unimpeded_proof _ _ _ _ _ _ (world_ctx (nx_sender x) x false) c Hg Ht Hby) as Hu.
  cbn [kx_sender kx_permit_valid kx_vapp_accepts world_ctx] in Hu. rewrite <- Ht in Hu. fold (stk_ctx x n) in Hu.
  change (ge_staking (net_gov Y)) with (net_staking Y) in Hu.
  assert (E : net_run_call Y x (CWorld (WStaking c)) n = on_world Y (world_ctx (nx_sender x) x false) (WStaking c) n) by (now destruct c).
  rewrite E. unfold on_world. destruct (staking_run _ _ _ _) as [[s evs]|e]; [destruct Hu as [v Hu]; exists v|]; now rewrite Hu.
Qed.

Lemma price_history K s log s' : stk_history K s log s' -> stk_inv K s -> Forall (by_outsider K) log ->
  i_price K (sk_bank s) (sk_bank s').
Proof.
  induction 1 as [s|s x c s1 evs log s' Hr _ IH|s x c e log s' Hr _ IH|s o t log s' Hr _ IH]; intros Hinv Ho.
  - apply price_refl.
  - apply Forall_cons in Ho as [Ho1 Ho2]. destruct (price_step K x c s s1 evs Hinv Ho1 Hr) as [Hip _].
    exact (price_trans _ _ _ _ _ _ Hip (IH (inv_call K x c s s1 evs Hinv Ho1 Hr) Ho2)).
  - apply Forall_cons in Ho as [_ Ho2]. exact (IH Hinv Ho2).
  - apply Forall_cons in Ho as [Ho1 Ho2]. destruct (token_op_inv K s o t Hinv Ho1 Hr) as [Hal Hi].
    refine (price_trans _ _ _ _ _ _ _ (IH (inv_prove K s t Hinv Hal) Ho2)). unfold i_assets at 2. sk_simpl.
    apply (price_more _ _ (i_assets K (sk_bank s))); [apply price_refl|exact Hi].
Qed.

(** ** Leaving *)

Lemma net_no_pending Y t0 n0 log n now p : net_run Y t0 n0 log n now -> ~ slash_pending (w_staking (nw_world n)) p.
Proof.
  intros H (c & Hc & _). apply net_unslashed in H as [H _]. unfold slashes_of in Hc. rewrite H, lookup_empty in Hc. inversion Hc.
Qed.

Lemma C87_request_proof Y t0 n0 log n now x amount :
  forall (Hrun : net_run Y t0 n0 log n now) (Hnow : nx_time x = now) (Hperson : net_acts Y n (nx_sender x))
    (Hsome : 0 < amount <= whole_stake (w_staking (nw_world n)) (nx_sender x))
    (Hroom : N.of_nat (length (open_claims n (nx_sender x))) < N.min (ne_max_requests Y) (2 ^ 64))
    (Hsupply : bk_stsupply (sk_bank (w_staking (nw_world n))) < 2 ^ 256 - 1),
  exists n', net_run_call Y x (CWorld (WStaking (KRequestUnstake amount))) n = Ok n'.
Proof.
  intros H Ht Ha Hs Hr Hsup. destruct (net_stk_clean _ _ _ _ _ _ H) as (k & Hk & _).
  pose proof (net_staking_call Y t0 n0 log n now x (KRequestUnstake amount) H Ht Ha I) as Hc.
  destruct (C51_request_accepted_proof (net_staking Y) k (w_staking (nw_world n)) (stk_ctx x n) amount Hk) as (s' & evs & E).
  - lia.
  - apply Hs.
  - change (N.of_nat (length (open_claims n (nx_sender x))) < ne_max_requests Y). lia.
  - change (N.of_nat (length (open_claims n (nx_sender x))) < 2 ^ 64). lia.
  - apply (net_no_pending _ _ _ _ _ _ _ H).
  - change two256 with (2 ^ 256). lia.
  - rewrite E in Hc. destruct Hc as [v Hc]. eauto.
Qed.

Lemma C87_finish_proof Y t0 n0 log n now x n1 v w log' n2 now2 x2 :
  let a := nx_sender x in
  let request := KRequestUnstake (whole_stake (w_staking (nw_world n)) a) in
  forall (Hrun : net_run Y t0 n0 log n now) (Hnow : nx_time x = now) (Hperson : net_acts Y n a)
    (Hstaked : staked (net_staking Y) a (w_staking (nw_world n)) = Ok v)
    (Hpending : unstake_pending (net_staking Y) a (w_staking (nw_world n)) = Ok w)
    (Hasked : net_run_call Y x (CWorld (WStaking request)) n = Ok n1)
    (Hthen : net_run Y t0 n0 (log ++ NAccepted x (CWorld (WStaking request)) [] n1 :: log') n2 now2)
    (Hopen : open_claims n2 a = open_claims n1 a)
    (Hperiod : now + ne_unstake_period Y <= now2)
    (Hcaller : net_acts Y n2 (nx_sender x2)) (Hnow2 : nx_time x2 = now2)
    (Hvault : prove_balance n2 (ne_iprove Y) < 2 ^ 256),
  exists n3, net_run_call Y x2 (CWorld (WStaking (KFinishUnstake a))) n2 = Ok n3 /\
    open_claims n3 a = [] /\ prove_balance n2 a + v + w <= prove_balance n3 a.
Proof.
  intros a request H Ht Ha Hv Hw Hasked H2 Hopen Hper Hc2 Ht2 Hva.
  set (K := net_staking Y) in *. set (s := w_staking (nw_world n)) in *.
  pose proof (acts_outside _ _ _ Ha) as Hout.
  destruct (net_stk_clean _ _ _ _ _ _ H) as (k & Hk & Nk). pose proof (inv_run _ _ _ Hk) as Hinv.
  pose proof (net_staking_call Y t0 n0 log n now x request H Ht Ha I) as Hcall. fold K s in Hcall.
  destruct (staking_run K (stk_ctx x n) request s) as [[s1 evs]|e] eqn:Es; [|congruence].
  destruct Hcall as [v1 Hcall]. rewrite Hasked in Hcall. injection Hcall as ->.
  set (n1 := Network (nw_vapp n) (World s1 v1 (w_governor (nw_world n)))) in *.
  assert (H1 : net_run Y t0 n0 (log ++ [NAccepted x (CWorld (WStaking request)) [] n1]) n1 now).
  { apply nr_accepted with (n := n); [exact H|exact Ht|split; [exact Ha|exact I]|exact Hasked]. }
  destruct (net_stk_more _ _ _ _ _ _ H2 (log ++ [NAccepted x (CWorld (WStaking request)) [] n1]) log' n1 now) as (k' & K1 & K2 & _ & _).
  { rewrite <- app_assoc. reflexivity. }
  { exact H1. }
  destruct (net_stk_clean _ _ _ _ _ _ H1) as (k1 & Hk1 & Nk1). pose proof (inv_run _ _ _ Hk1) as Hinv1.
  destruct (net_stk_clean _ _ _ _ _ _ H2) as (k2 & Hk2 & Nk2). pose proof (inv_run _ _ _ Hk2) as Hinv2.
  change (w_staking (nw_world n1)) with s1 in *. fold K in K1, K2, Hk1, Hk2, Hinv1, Hinv2.
  set (s2 := w_staking (nw_world n2)) in *. set (p := bound_to s a).
  assert (Hp : p <> 0) by (unfold request in Es; cbn [staking_run] in Es; apply request_unstake_ok in Es; cbv zeta in Es; apply Es).
  destruct (request_kept K p (stk_ctx x n) s s1 evs v w Hinv Hout (unslashed_run K p k s Hp Hk (Nk p))
     (unslashed_run K p k1 s1 Hp Hk1 (Nk1 p)) eq_refl Es Hv Hw) as [Hle Hb1].
  change (kx_sender (stk_ctx x n)) with a in Hle, Hb1.
  change (claims_of s2 a = claims_of s1 a) in Hopen.
  pose proof (price_history K s1 k' s2 K1 Hinv1 K2) as Hip.
  pose proof (escrow_price K s1 s2 a Hip Hopen) as Hle2.
  assert (Hne : claims_of s2 a <> []).
  { rewrite Hopen. pose proof (request_exact K (stk_ctx x n) _ s s1 evs Hinv Es) as Hr. cbv zeta in Hr.
    destruct Hr as (i & f & _ & _ & _ & _ & _ & Hcl & _). change (kx_sender (stk_ctx x n)) with a in Hcl.
    rewrite Hcl. intros E. apply app_eq_nil in E as [_ E]. discriminate. }
  assert (Hb2 : bound_to s2 a <> 0) by (intros E; destruct (ki_unbound K s2 Hinv2 a E); contradiction).
  pose proof (unslashed_run K (bound_to s2 a) k2 s2 Hb2 Hk2 (Nk2 (bound_to s2 a))) as Hu2.
  assert (Hnw : Forall (not_wiped (bound_to s2 a)) k2) by (eapply Forall_impl; [exact (Nk2 (bound_to s2 a))|apply unslashed_not_wiped]).
  assert (Hmat : forall c, c ∈ claims_of s2 a -> uc_time c + ke_unstake_period K <= now2).
  { intros c Hc. rewrite Hopen in Hc. destruct (net_gov_run _ _ _ _ _ _ H1) as (g & Hg & _).
    pose proof (gov_claims _ _ _ _ _ _ Hg a c Hc). change (ke_unstake_period K) with (ne_unstake_period Y). lia. }
  assert (Hnow48 : now2 < 2 ^ 48).
  { clear -H2. assert (G : forall l m t, net_run Y t0 n0 l m t -> t < 2 ^ 48); [|exact (G _ _ _ H2)].
    induction 1 as [Hs| | |]; [apply (ns_time _ _ _ Hs)|assumption..]. }
  destruct (C51_finish_accepted_proof K k2 s2 (stk_ctx x2 n2) a Hk2 Hne Hnw (net_no_pending _ _ _ _ _ _ (bound_to s2 a) H2)) as (s3 & evs3 & E3).
  { intros c Hc. specialize (Hmat c Hc). apply N.le_lt_trans with now2; [exact Hmat|].
    apply N.lt_trans with (2 ^ 48); [exact Hnow48|reflexivity]. }
  { exact Hva. }
  pose proof (net_staking_call Y t0 n0 _ n2 now2 x2 (KFinishUnstake a) H2 Ht2 Hc2 I) as Hcall2. fold K s2 in Hcall2.
  rewrite E3 in Hcall2. destruct Hcall2 as [v3 Hcall2]. eexists. split; [exact Hcall2|].
  cbn [staking_run] in E3. destruct multiple_exists as [L HL].
  pose proof (backed_run K L _ k2 s2 HL Hb2 Hk2 Hnw) as Hbk2.
  assert (Hai : a <> ke_iprove K) by apply Hout.
  destruct (pending_paid K L (stk_ctx x2 n2) a s2 s3 evs3 HL Hinv2 Hai Hbk2 E3) as (Q1 & Q2 & _).
  { apply Forall_forall. intros c Hc. unfold matured. cbn [kx_time stk_ctx]. rewrite Ht2. exact (Hmat c Hc). }
  split; [exact Q1|].
  destruct (finish_exact K (stk_ctx x2 n2) a s2 s3 evs3 Hinv2 Hai E3) as (done & _ & _ & _ & _ & Hbal & _).
  change (tk_balance (bk_prove (sk_bank s2)) a + v + w <= tk_balance (bk_prove (sk_bank s3)) a).
  rewrite (escrow_pending K (bound_to s2 a) s2 a Hu2 (or_intror eq_refl)) in Q2. lia.
Qed.

Lemma C87_leave_proof K log s x s1 evs log' s2 v w w' :
  let a := kx_sender x in
  forall (Hrun : stk_run K log s) (Hperson : outside K a)
    (Hstaked : staked K a s = Ok v) (Hpending : unstake_pending K a s = Ok w)
    (Hasked : staking_run K x (KRequestUnstake (whole_stake s a)) s = Ok (s1, evs))
    (Hthen : stk_history K s1 log' s2) (Hothers : Forall (by_outsider K) log')
    (Hunslashed : Forall (no_slash_of (bound_to s a)) (log ++ log')) (Hstays : Forall (no_request_by a) log')
    (Hleft : unstake_pending K a s2 = Ok w'),
  v + w <= claims_paid a log' + w'.
Proof.
  intros a H Ho Hv Hw Hr Hh Hf Hs Hn Hw'.
  assert (Hinv2 : stk_inv K s2).
  { refine (inv_history K s1 log' s2 Hh _ Hf). eapply inv_call; [exact (inv_run K log s H)| |exact Hr]. split; [exact Ho|exact I]. }
  rewrite (unstake_pending_value K s2 a w' Hinv2 Hw'). exact (leave K log s x s1 evs log' s2 v w H Ho Hr Hh Hf Hn Hs Hv Hw).
Qed.
