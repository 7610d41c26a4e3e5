(** Calls that the rules allow are accepted. *)
From Verif Require Export StakingRulesFacts.
From Coq Require Import Lia ZifyBool ZifyN ZifyNat.
Open Scope N_scope.

(** ** The rules determine the outcome *)

Lemma first_split {A} (P : A -> Prop) (h1 h2 : list A) c1 c2 t1 t2 :
  h1 ++ c1 :: t1 = h2 ++ c2 :: t2 -> Forall (fun c => ~ P c) h1 -> Forall (fun c => ~ P c) h2 -> P c1 -> P c2 ->
  h1 = h2 /\ c1 = c2 /\ t1 = t2.
Proof.
  revert h2. induction h1 as [|x h1 IH]; intros [|y h2] E F1 F2 P1 P2; cbn [app] in E.
  - injection E as -> ->. auto.
  - injection E as -> _. apply Forall_cons in F2 as [F2 _]. contradiction.
  - injection E as <- _. apply Forall_cons in F1 as [F1 _]. contradiction.
  - injection E as -> E. apply Forall_cons in F1 as [_ F1]. apply Forall_cons in F2 as [_ F2].
    destruct (IH h2 E F1 F2 P1 P2) as (-> & -> & ->). auto.
Qed.

Lemma none_split {A} (P : A -> Prop) (l h : list A) c t :
  l = h ++ c :: t -> Forall (fun c => ~ P c) l -> P c -> False.
Proof. intros -> H Hc. rewrite Forall_app, Forall_cons in H. tauto. Qed.

Lemma due_once K now l paid left : due K now l paid left ->
  forall paid' left', due K now l paid' left' -> paid' = paid /\ left' = left.
Proof.
  induction 1 as [l Hl|h c paid left Hh Hc Hd IH|h c m z paid left Hh Hc Hd IH]; intros paid' left' H'.
  - inversion H' as [l' Hl' |h' c' p' q' Hh' Hc' Hd' E|h' c' m' z' p' q' Hh' Hc' Hd' E]; subst.
    + auto.
    + exfalso. eapply none_split; [reflexivity|exact Hl|exact Hc'].
    + exfalso. eapply none_split; [reflexivity|exact Hl|exact Hc'].
  - inversion H' as [l' Hl' |h' c' p' q' Hh' Hc' Hd' E|h' c' m' z' p' q' Hh' Hc' Hd' E]; subst.
    + exfalso. eapply none_split; [reflexivity|exact Hl'|exact Hc].
    + apply (first_split (matured K now)) in E as (-> & -> & _); [|assumption..]. apply IH in Hd' as [-> ->]. auto.
    + apply (first_split (matured K now)) in E as (-> & -> & E); [|assumption..]. destruct m'; discriminate.
  - inversion H' as [l' Hl' |h' c' p' q' Hh' Hc' Hd' E|h' c' m' z' p' q' Hh' Hc' Hd' E]; subst.
    + exfalso. eapply none_split; [reflexivity|exact Hl'|exact Hc].
    + apply (first_split (matured K now)) in E as (-> & -> & E); [|assumption..]. destruct m; discriminate.
    + apply (first_split (matured K now)) in E as (-> & -> & E); [|assumption..]. apply app_inj_tail in E as [-> ->].
      apply IH in Hd' as [-> ->]. auto.
Qed.

Lemma rule_once K x v c w evs w' evs' :
  rule K x v c w evs -> rule K x v c w' evs' -> w' = w /\ evs' = evs.
Proof.
  intros H H'. destruct H; inversion H'; subst; try (split; reflexivity).
  - destruct (due_once _ _ _ _ _ H2 _ _ H8) as [-> ->]. unfold p in H3. unfold p0 in H9. rewrite H3 in H9.
    injection H9 as <- <-. auto.
  - match goal with H1 : _ !! _ = Some ?c1, H2 : _ !! _ = Some ?c2 |- _ => rewrite H1 in H2; injection H2 as -> end. auto.
  - match goal with H1 : _ !! _ = Some ?c1, H2 : _ !! _ = Some ?c2 |- _ => rewrite H1 in H2; injection H2 as -> end. auto.
Qed.

(** ** Tokens *)

Lemma transfer_from_live t spender from to n :
  from <> 0 -> to <> 0 -> tk_allowance t from spender = 2 ^ 256 - 1 \/ n <= tk_allowance t from spender ->
  n <= tk_balance t from -> exists t', tk_transfer_from t spender from to n = Ok t'.
Proof.
  intros H1 H2 Hm Hn. unfold tk_transfer_from, tk_spend. change u256_max with (2 ^ 256 - 1).
  destruct (N.eqb_spec (tk_allowance t from spender) (2 ^ 256 - 1)) as [E|E]; [now apply transfer_live|].
  destruct (N.ltb_spec (tk_allowance t from spender) n); [destruct Hm; [congruence|lia]|]. now apply transfer_live.
Qed.

Lemma i_deposit_live K caller receiver n b :
  caller <> 0 -> ke_iprove K <> 0 -> receiver <> 0 ->
  tk_allowance (bk_prove b) caller (ke_iprove K) = 2 ^ 256 - 1 \/ n <= tk_allowance (bk_prove b) caller (ke_iprove K) ->
  n <= tk_balance (bk_prove b) caller ->
  bk_isupply b + issued n (i_assets K b) (bk_isupply b) < 2 ^ 208 ->
  exists b', i_deposit K caller receiver n b = Ok (b', issued n (i_assets K b) (bk_isupply b)).
Proof.
  intros H1 H2 H3 Hm Hn Hs. unfold i_deposit, i_preview_deposit.
  assert (Hv : max_votes_supply < two256) by reflexivity.
  assert (E208 : 2 ^ 208 = max_votes_supply + 1) by reflexivity. rewrite E208 in Hs. clear E208.
  rewrite mul_div_eq; [|lia|unfold issued in Hs; lia]. cbn [sk_bind].
  destruct (transfer_from_live (bk_prove b) (ke_iprove K) caller (ke_iprove K) n H1 H2 Hm Hn) as (t & Ht). rewrite Ht.
  cbn [sk_token sk_bind]. unfold i_mint. destruct (N.eqb_spec receiver 0); [congruence|]. cbn [negb sk_require sk_bind].
  cbn [bk_set_prove bk_isupply]. fold (issued n (i_assets K b) (bk_isupply b)).
  destruct (N.leb_spec (bk_isupply b + issued n (i_assets K b) (bk_isupply b)) max_votes_supply); [|lia].
  cbn [sk_require sk_bind]. eexists. reflexivity.
Qed.

(** ** Staking *)

Lemma stake_for_live K a p n s t :
  stk_inv K s -> can_stake K (picture_of s) a p n -> outside K a -> allow_ok K t ->
  pc_stsupply (picture_of s) + 1 < 2 ^ 256 ->
  (forall y, tk_balance t y = (if y =? a then tk_balance (bk_prove (sk_bank s)) y - n else tk_balance (bk_prove (sk_bank s)) y)
     + if y =? ke_self K then n else 0) ->
  exists s' evs, stake_for K a p n (sk_set_bank (bk_set_prove t (sk_bank s)) s) = Ok (s', evs).
Proof.
  intros Hinv [C1 C2 C3 C4 C5 C6 C7 C8 C9 C10 C11] [Ha1 Ha2] Hal Hst Hbal. pic.
  pose proof (ki_addresses K s Hinv) as HK. pose proof (sao_distinct K HK) as Hd.
  apply bool_decide_eq_true in C1. destruct (ki_provers K s Hinv p C1) as (Hp0 & Hps & Hpi).
  assert (Hti : i_assets K (bk_set_prove t (sk_bank s)) = i_assets K (sk_bank s)).
  { unfold i_assets. cbn [bk_set_prove bk_prove]. rewrite Hbal. destruct (N.eqb_spec (ke_iprove K) a); [congruence|].
    destruct (N.eqb_spec (ke_iprove K) (ke_self K)); [congruence|]. apply N.add_0_r. }
  unfold vault in *. pic. fold (i_assets K (sk_bank s)) in *.
  set (i := issued n (i_assets K (sk_bank s)) (bk_isupply (sk_bank s))) in *.
  set (sh := issued i (tk_balance (bk_iprove (sk_bank s)) p) (default 0 (bk_shares (sk_bank s) !! p))) in *.
  assert (Hn0 : n <> 0).
  { intros ->. apply C8. unfold i, issued. rewrite N.mul_0_l. apply N.div_0_l. lia. }
  unfold stake_for. sk_simpl. destruct (N.eqb_spec n 0); [congruence|]. cbn [negb sk_require sk_bind].
  destruct (N.ltb_spec n (ke_min_stake K)); [lia|]. cbn [negb sk_require sk_bind].
  change (is_deactivated (sk_set_bank (bk_set_prove t (sk_bank s)) s) p) with (is_deactivated s p).
  assert (is_deactivated s p = false) as -> by exact C2. cbn [negb sk_require sk_bind].
  unfold no_slash_requests. change (pending_of (sk_set_bank (bk_set_prove t (sk_bank s)) s) p) with (pending_of s p).
  rewrite (proj1 (settled_iff K s p Hinv) C3). cbn [N.ltb N.compare negb sk_require sk_bind].
  change (bound_to (sk_set_bank (bk_set_prove t (sk_bank s)) s) a) with (bound_to s a).
  fold (bound_to s a) in C4.
  assert ((bound_to s a =? 0) || (bound_to s a =? p) = true) as ->.
  { destruct C4 as [-> | ->]; [reflexivity|]. now rewrite N.eqb_refl, orb_true_r. }
  cbn [sk_require sk_bind].
  set (s1 := if bound_to s a =? 0 then _ else _).
  assert (sk_bank s1 = bk_set_prove t (sk_bank s)) as -> by (unfold s1; now destruct (bound_to s a =? 0)).
  destruct (i_deposit_live K (ke_self K) (ke_self K) n (bk_set_prove t (sk_bank s)) (sao_self K HK) (sao_iprove K HK) (sao_self K HK))
    as (b1 & Hd1).
  { left. cbn [bk_set_prove bk_prove]. rewrite (proj1 (Hal (ke_iprove K))), N.eqb_refl. reflexivity. }
  { cbn [bk_set_prove bk_prove]. rewrite Hbal, N.eqb_refl. lia. }
  { rewrite Hti. exact C9. }
  rewrite Hd1. rewrite Hti in *. cbn [bk_set_prove bk_isupply] in *. fold i in Hd1 |- *. cbn [sk_bind].
  destruct (N.eqb_spec i 0); [congruence|]. cbn [negb sk_require sk_bind].
  apply i_deposit_ok in Hd1 as (t1 & Ht1 & Hb1 & _ & Hish & Hisup & Hibal & _ & Hs1 & Hs2 & Hs3). sk_simpl.
  assert (Hsh0 : shares_of b1 p = default 0 (bk_shares (sk_bank s) !! p)) by (unfold shares_of; now rewrite Hs1).
  assert (Hva : v_assets p b1 = tk_balance (bk_iprove (sk_bank s)) p).
  { unfold v_assets. rewrite Hibal. destruct (N.eqb_spec p (ke_self K)); [congruence|]. apply N.add_0_r. }
  pose proof (stakes_le_supply K s p Hinv) as Hle. rewrite <- (ki_shares K s Hinv p) in Hle.
  unfold shares_of in Hle. change (2 ^ 256) with two256 in *.
  unfold v_deposit. rewrite Hsh0, Hva. unfold sk_add at 1.
  destruct (N.ltb_spec (default 0 (bk_shares (sk_bank s) !! p) + 1) two256); [|lia]. cbn [sk_bind].
  rewrite mul_div_eq; [|lia|fold (issued i (tk_balance (bk_iprove (sk_bank s)) p) (default 0 (bk_shares (sk_bank s) !! p))); fold sh; lia].
  fold (issued i (tk_balance (bk_iprove (sk_bank s)) p) (default 0 (bk_shares (sk_bank s) !! p))). fold sh. cbn [sk_bind].
  destruct (transfer_live (bk_iprove b1) (ke_self K) p i (sao_self K HK) Hp0) as (t2 & Ht2).
  { rewrite Hibal, N.eqb_refl. lia. }
  rewrite Ht2. cbn [sk_token sk_bind]. unfold sk_add at 1.
  destruct (N.ltb_spec (default 0 (bk_shares (sk_bank s) !! p) + sh) two256); [|lia]. cbn [sk_bind].
  destruct (N.eqb_spec sh 0); [congruence|]. cbn [negb sk_require sk_bind].
  unfold st_mint. destruct (N.eqb_spec a 0); [congruence|]. cbn [negb sk_require sk_bind]. sk_simpl. rewrite Hs3.
  unfold sk_add. destruct (N.ltb_spec (bk_stsupply (sk_bank s) + sh) two256); [|lia]. cbn [sk_bind].
  do 2 eexists. reflexivity.
Qed.

Lemma stake_live K x p n s :
  stk_inv K s -> outside K (kx_sender x) -> can_stake K (picture_of s) (kx_sender x) p n ->
  may_spend (picture_of s) (kx_sender x) (ke_self K) n -> pc_stsupply (picture_of s) + 1 < 2 ^ 256 ->
  exists s' evs, k_stake K x p n s = Ok (s', evs).
Proof.
  intros Hinv Ho Hc Hm Hs. pose proof (ki_addresses K s Hinv) as HK.
  pose proof (cs_prover _ _ _ _ _ Hc) as Hp. pose proof (cs_staker _ _ _ _ _ Hc) as Ha0. pose proof (cs_held _ _ _ _ _ Hc) as Hh.
  unfold k_stake. assert (is_prover s p = true) as -> by exact Hp. cbn [sk_require sk_bind].
  destruct (transfer_from_live (bk_prove (sk_bank s)) (ke_self K) (kx_sender x) (ke_self K) n Ha0 (sao_self K HK) Hm Hh) as (t & Ht).
  rewrite Ht. cbn [sk_token sk_bind].
  pose proof (proj1 (transfer_from_allow K _ _ _ _ _ _ (sao_distinct K HK) (ki_allow K s Hinv) Ht)) as Hal.
  apply transfer_from_spent in Ht as (_ & _ & _ & _ & Hb). now apply stake_for_live.
Qed.

Lemma permit_live K x p a n s :
  stk_inv K s -> outside K a -> can_stake K (picture_of s) a p n ->
  pc_allowed (picture_of s) a p = n \/ kx_permit_valid x = true -> pc_stsupply (picture_of s) + 1 < 2 ^ 256 ->
  exists s' evs, k_permit_and_stake K x p a n s = Ok (s', evs).
Proof.
  intros Hinv Ho Hc Hm Hs. pose proof (ki_addresses K s Hinv) as HK.
  pose proof (cs_prover _ _ _ _ _ Hc) as Hp. pose proof (cs_staker _ _ _ _ _ Hc) as Ha0. pose proof (cs_held _ _ _ _ _ Hc) as Hh.
  unfold k_permit_and_stake. assert (is_prover s p = true) as -> by exact Hp. cbn [sk_require sk_bind].
  set (t1 := if _ =? n then _ else _).
  assert (H1 : exists t, t1 = Ok t /\ allow_ok K t /\ tk_balances t = tk_balances (bk_prove (sk_bank s)) /\ tk_allowance t a p = n).
  { unfold t1. pic. destruct (N.eqb_spec (tk_allowance (bk_prove (sk_bank s)) a p) n) as [E|E].
    - eexists. split; [reflexivity|]. split; [exact (ki_allow K s Hinv)|]. split; [reflexivity|exact E].
    - destruct Hm as [Hm| ->]; [congruence|]. eexists. split; [reflexivity|].
      split; [apply approve_allow; [exact Ho|exact (ki_allow K s Hinv)]|]. split; [reflexivity|].
      rewrite allowance_approve, !N.eqb_refl. reflexivity. }
  destruct H1 as (t & -> & Hal1 & Hb1 & Hn). cbn [sk_bind].
  destruct (transfer_from_live t p a (ke_self K) n Ha0 (sao_self K HK)) as (t2 & Ht).
  { right. lia. }
  { rewrite (balances_eq _ _ _ Hb1). exact Hh. }
  rewrite Ht. cbn [sk_token sk_bind].
  pose proof (proj1 (transfer_from_allow K _ _ _ _ _ _ (sao_distinct K HK) Hal1 Ht)) as Hal.
  apply transfer_from_spent in Ht as (_ & _ & _ & _ & Hb). apply stake_for_live; try assumption.
  intros y. rewrite Hb, !(balances_eq _ _ _ Hb1). reflexivity.
Qed.

(** ** Unstaking *)

Section FinishAllowed.
  Context (K : staking_env) (a p : N).
  Context (HK : stk_addresses_ok K) (Ha0 : a <> 0) (Ha : outside K a).

  Definition payable (claims : list unstake_claim) (pool : escrow_pool) (b : bank) : Prop :=
    Forall (fun c => 0 < uc_factor c /\ uc_time c + ke_unstake_period K < two256 /\ claim_value (ep_factor pool) c < two256) claims /\
    ep_escrow pool <= tk_balance (bk_iprove b) (ke_self K) /\ i_total_ok b /\ i_assets K b < two256.

  Lemma finish_request_allowed c rest claims pool b :
    Permutation claims (c :: rest) -> payable claims pool b ->
    exists pool1 b1 prove ev, finish_request K a p c pool b = Ok (pool1, b1, prove, ev) /\
      payable rest pool1 b1 /\ i_assets K b1 + prove = i_assets K b.
  Proof.
    intros Hperm (Hc & He & Ht & Hs). rewrite Hperm in Hc. apply Forall_cons in Hc as [(Hc1 & Hc2 & Hc3) Hrest].
    assert (Hok : exists pool1 b1 prove ev, finish_request K a p c pool b = Ok (pool1, b1, prove, ev) /\
      i_assets K b1 + prove = i_assets K b).
    { unfold finish_request. rewrite mul_div_eq; [|lia|exact Hc3]. cbn [sk_bind].
      fold (claim_value (ep_factor pool) c).
      set (paid := if ep_escrow pool <? claim_value (ep_factor pool) c then ep_escrow pool else claim_value (ep_factor pool) c).
      assert (Hpaid : paid <= ep_escrow pool).
      { unfold paid. destruct (N.ltb_spec (ep_escrow pool) (claim_value (ep_factor pool) c)); lia. }
      destruct (N.eqb_spec paid 0) as [E0|E0].
      - do 4 eexists. split; [reflexivity|]. lia.
      - destruct (i_redeem_live K paid a (ke_self K) b (sao_self K HK) Ha0 (sao_iprove K HK) Ht ltac:(lia) Hs) as (b1 & prove & Hr).
        rewrite Hr. cbn [sk_bind]. do 4 eexists. split; [reflexivity|].
        apply i_redeem_ok in Hr as (Htr & _ & _ & _ & _ & _ & _). apply transfer_ok in Htr as (_ & Hle2 & Hb).
        unfold i_assets. rewrite Hb, N.eqb_refl. destruct Ha as [_ Ha']. destruct (N.eqb_spec (ke_iprove K) a); [congruence|]. lia. }
    destruct Hok as (pool1 & b1 & prove & ev & Hf & Hassets). exists pool1, b1, prove, ev. split; [exact Hf|]. split; [|exact Hassets].
    pose proof (pr_cons K a p c [] pool b pool1 b1 prove ev [] pool1 b1 Hf (pr_nil K a p pool1 b1)) as Hrun.
    apply finish_request_ok in Hf as (_ & Hf). cbv zeta in Hf. destruct Hf as (_ & _ & Hfac & _).
    apply pay_run_ok in Hrun. cbv zeta in Hrun. destruct Hrun as (Hpaid & Hesc & _ & _ & _).
    split; [rewrite Hfac; exact Hrest|]. split; [|split; [apply (po_total K _ _ _ Hpaid Ht)|lia]].
    pose proof (po_self K _ _ _ Hpaid). lia.
  Qed.

  Lemma finish_loop_allowed now fuel : forall i claims pool b,
    payable claims pool b ->
    exists claims' pool' b' total evs,
      finish_loop K now a p fuel i claims pool b = Ok (claims', pool', b', total, evs) /\ total + i_assets K b' = i_assets K b.
  Proof.
    induction fuel as [|fuel IH]; intros i claims pool b Hst; cbn [finish_loop].
    - do 5 eexists. split; [reflexivity|]. lia.
    - destruct (claims !! i) as [c|] eqn:Hc; [|do 5 eexists; split; [reflexivity|lia]].
      assert (Htime : uc_time c + ke_unstake_period K < two256).
      { destruct Hst as (Hf & _). rewrite Forall_lookup in Hf. exact (proj1 (proj2 (Hf i c Hc))). }
      unfold sk_add at 1. destruct (N.ltb_spec (uc_time c + ke_unstake_period K) two256); [|lia].
      cbn [sk_bind]. destruct (uc_time c + ke_unstake_period K <=? now); [|exact (IH (S i) claims pool b Hst)].
      destruct (swap_remove_perm claims i c Hc) as (Hperm & _ & _).
      destruct (finish_request_allowed c (swap_remove i claims) claims pool b Hperm Hst) as (pool1 & b1 & prove & ev & Hf & Hst1 & Hassets).
      rewrite Hf. cbn [sk_bind]. destruct (IH i _ _ _ Hst1) as (claims' & pool' & b' & total & evs & Hl & Htot).
      rewrite Hl. cbn [sk_bind]. destruct Hst as (_ & _ & _ & Hs). unfold sk_add.
      destruct (N.ltb_spec (prove + total) two256); [|lia]. cbn [sk_bind]. do 5 eexists. split; [reflexivity|]. lia.
  Qed.
End FinishAllowed.

Lemma finish_allowed K x a s :
  stk_inv K s -> a <> 0 -> outside K a -> moderate K x (picture_of s) ->
  bound_to s a <> 0 -> claims_of s a <> [] -> settled (picture_of s) (bound_to s a) ->
  exists s' evs, k_finish_unstake K x a s = Ok (s', evs).
Proof.
  intros Hinv Ha0 Ha Hm Hbound Hcl Hns. unfold k_finish_unstake. set (p := bound_to s a) in *.
  destruct (N.eqb_spec p 0); [congruence|]. cbn [negb sk_require sk_bind].
  destruct (claims_of s a) as [|c0 l0] eqn:El; [congruence|]. cbn [length Nat.eqb negb sk_require sk_bind]. rewrite <- El in *.
  unfold no_slash_requests. rewrite (proj1 (settled_iff K s p Hinv) Hns). cbn [N.ltb N.compare negb sk_require sk_bind].
  assert (Hst : payable K (claims_of s a) (pool_of s p) (sk_bank s)).
  { split; [|split; [|split]].
    - apply Forall_forall. intros c Hc. destruct (ki_claims K s Hinv a c Hc) as [[? ?] _]. split; [assumption|].
      exact (mo_claims K x _ Hm a c Hc).
    - rewrite (ki_escrow K s Hinv). apply escrow_le_all.
    - exact (ki_total K s Hinv).
    - exact (mo_vault K x _ Hm). }
  destruct (finish_loop_allowed K a p (ki_addresses K s Hinv) Ha0 Ha (kx_time x) (S (length l0)) 0%nat _ _ _ Hst)
    as (claims' & pool' & b' & total & evs & Hl & _).
  rewrite Hl. cbn [sk_bind]. do 2 eexists. reflexivity.
Qed.

(** ** The other calls *)

Lemma settled_free s p : settled (picture_of s) p -> ~ slash_pending s p.
Proof. intros H (c & Hc & Hr). rewrite (H c Hc) in Hr. discriminate. Qed.

Lemma vapp_nonzero K log s : stk_run K log s -> ke_vapp K <> 0.
Proof.
  intros [_ (prove & owner & governor & pa & dispenser & s0 & _ & Hi & _) _]. unfold staking_initialize in Hi.
  destruct (forallb _ _) eqn:E; [|discriminate]. cbn [forallb] in E. rewrite !andb_true_iff in E. lia.
Qed.

Theorem rules_accepted K log s x c w evs :
  stk_run K log s -> by_outsider K (KAccepted x c evs s) -> moderate K x (picture_of s) ->
  rule K x (picture_of s) c w evs ->
  exists s', staking_run K x c s = Ok (s', evs) /\ alike w (picture_of s').
Proof.
  intros Hrun Ho Hm Hr. pose proof (inv_run K log s Hrun) as Hinv. pose proof (ki_addresses K s Hinv) as HK.
  assert (Hlive : exists s' evs', staking_run K x c s = Ok (s', evs')).
  { destruct Ho as [Ho Hperm]. destruct Hr; cbn [staking_run].
    - apply stake_live; try assumption. exact (mo_stsupply K x _ Hm).
    - apply permit_live; try assumption. exact (mo_stsupply K x _ Hm).
    - apply request_unstake_live; try assumption.
      + exact (proj1 (bound_outside_run K log s _ Hrun H1)).
      + now apply settled_free.
      + exact (mo_stsupply K x _ Hm).
    - destruct (bound_outside_run K log s _ Hrun H) as [Ha0 Ha]. now apply finish_allowed.
    - unfold k_request_slash. rewrite H, N.eqb_refl. cbn [sk_require sk_bind].
      assert (is_prover s p = true) as -> by exact H0. cbn [sk_require sk_bind].
      destruct (N.eqb_spec n 0); [congruence|]. cbn [negb sk_require sk_bind]. pic.
      destruct (N.ltb_spec (N.of_nat (length (slashes_of s p))) two64) as [_|Hge]; [|unfold slashes_of, two64 in Hge; lia].
      cbn [sk_require sk_bind]. do 2 eexists. reflexivity.
    - apply cancel_slash_live with (c := c); try assumption; [now apply bool_decide_eq_true in H|exact (mo_time K x _ Hm)].
    - apply finish_slash_live with (c := c); try assumption.
      + now apply bool_decide_eq_true in H0.
      + exact (mo_price K x _ Hm p).
      + exact (mo_vault K x _ Hm).
    - unfold k_dispense. pic. unfold d in *. rewrite H, N.eqb_refl. cbn [sk_require sk_bind].
      assert (max_dispense x (sk_dispensing s) = Ok (earned_now x (sk_dispensing s) - dp_distributed (sk_dispensing s))) as ->.
      { pose proof (mo_earned K x _ Hm) as He. pic. unfold max_dispense, earned_now, sk_sub, sk_mul, sk_add, sk_bind in *.
        change two256 with (2 ^ 256).
        destruct (N.leb_spec (dp_since (sk_dispensing s)) (kx_time x)); [|lia].
        destruct (N.ltb_spec ((kx_time x - dp_since (sk_dispensing s)) * dp_rate (sk_dispensing s)) (2 ^ 256)); [|lia].
        destruct (N.ltb_spec (dp_earned (sk_dispensing s) + (kx_time x - dp_since (sk_dispensing s)) * dp_rate (sk_dispensing s)) (2 ^ 256)); [|lia].
        destruct (N.leb_spec (dp_distributed (sk_dispensing s)) (dp_earned (sk_dispensing s) + (kx_time x - dp_since (sk_dispensing s)) * dp_rate (sk_dispensing s))); [|lia].
        reflexivity. }
      cbn [sk_bind]. change u256_max with (2 ^ 256 - 1). fold m in H0, H1, H3 |- *.
      destruct (N.eqb_spec m 0); [congruence|]. cbn [negb sk_require sk_bind].
      destruct (N.ltb_spec (earned_now x (sk_dispensing s) - dp_distributed (sk_dispensing s)) m); [lia|]. cbn [negb sk_require sk_bind].
      pose proof (mo_earned K x _ Hm) as He. pic. unfold sk_add. change two256 with (2 ^ 256).
      destruct (N.ltb_spec (dp_distributed (sk_dispensing s) + m) (2 ^ 256)); [|lia]. cbn [sk_bind].
      destruct (transfer_live (bk_prove (sk_bank s)) (ke_self K) (ke_iprove K) m (sao_self K HK) (sao_iprove K HK) H3) as (t & Ht).
      rewrite Ht. cbn [sk_token sk_bind]. do 2 eexists. reflexivity.
    - unfold k_set_dispenser. pic. rewrite H, N.eqb_refl. do 2 eexists. reflexivity.
    - unfold k_update_rate. pic. rewrite H, N.eqb_refl. cbn [sk_require sk_bind].
      pose proof (mo_earned K x _ Hm) as He. pic. unfold d, earned_now, sk_sub, sk_mul, sk_add, sk_bind in *.
      change two256 with (2 ^ 256).
      destruct (N.leb_spec (dp_since (sk_dispensing s)) (kx_time x)); [|lia].
      destruct (N.ltb_spec ((kx_time x - dp_since (sk_dispensing s)) * dp_rate (sk_dispensing s)) (2 ^ 256)); [|lia].
      destruct (N.ltb_spec (dp_earned (sk_dispensing s) + (kx_time x - dp_since (sk_dispensing s)) * dp_rate (sk_dispensing s)) (2 ^ 256)); [|lia].
      do 2 eexists. reflexivity.
    - unfold k_create_prover. pic. destruct (N.ltb_spec 10000 bips); [lia|]. cbn [negb sk_require sk_bind].
      unfold o in *. rewrite H0. cbn [N.eqb sk_require sk_bind].
      assert (is_prover s (ke_create2 K (kx_sender x) ((rg_count (sk_registry s) + 1) mod two256) bips) = false) as -> by exact H1.
      cbn [negb sk_require sk_bind]. rewrite H2. cbn [sk_require sk_bind]. do 2 eexists. reflexivity.
    - unfold k_reward. assert (is_prover s p = true) as -> by exact H. cbn [sk_require sk_bind].
      apply bool_decide_eq_true in H. destruct (ki_provers K s Hinv p H) as (Hp0 & _ & _).
      destruct (i_deposit_live K (ke_vapp K) p n (sk_bank s) (vapp_nonzero K log s Hrun) (sao_iprove K HK) Hp0 H1 H0 H2) as (b & Hb).
      rewrite Hb. cbn [sk_bind]. do 2 eexists. reflexivity.
    - unfold k_transfer_ownership. pic. rewrite H, N.eqb_refl. cbn [sk_require sk_bind].
      destruct (N.eqb_spec a 0); [congruence|]. do 2 eexists. reflexivity.
    - unfold k_renounce_ownership. pic. rewrite H, N.eqb_refl. do 2 eexists. reflexivity. }
  destruct Hlive as (s' & evs' & Hs).
  destruct (rules_followed K x c s s' evs' Hinv Ho Hs) as (w' & Hr' & Ha).
  destruct (rule_once K x _ c w evs w' evs' Hr Hr') as [-> ->]. exists s'. auto.
Qed.
