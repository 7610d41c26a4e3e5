(** Calls of the staking contract that cannot fail. *)
From Verif Require Export StakingBacked.
From Coq Require Import Lia ZifyBool ZifyN ZifyNat.
Open Scope N_scope.

Lemma votes_small : max_votes_supply < two256 /\ two64 < two256.
Proof. split; reflexivity. Qed.

(** ** Stakers are outsiders *)

Lemma bound_outside_step K x c s s' evs :
  stk_inv K s -> by_outsider K (KAccepted x c evs s') -> staking_run K x c s = Ok (s', evs) ->
  (forall a, bound_to s a <> 0 -> a <> 0 /\ outside K a) -> forall a, bound_to s' a <> 0 -> a <> 0 /\ outside K a.
Proof.
  intros Hinv Ho H Hb a Ha.
  assert (Hstake : forall y q n t, outside K y -> stake_for K y q n (sk_set_bank (bk_set_prove t (sk_bank s)) s) = Ok (s', evs) ->
    a <> 0 /\ outside K a).
  { intros y q n t Hy Hs. pose proof (stake_frame _ _ _ _ _ _ _ Hs) as (_ & _ & _ & F3 & _ & F5).
    rewrite F3 in Ha. destruct (N.eqb_spec a y) as [->|]; [auto|]. exact (Hb a Ha). }
  destruct c;
    try (match type of H with staking_run _ _ ?c _ = _ => destruct (quiet_ok K x c s s' evs I H) as (_ & _ & Q2 & _ & _) end;
         unfold bound_to in Ha; rewrite Q2 in Ha; exact (Hb a Ha)).
  - destruct (stake_call_frame K x (KStake p amount) s s' evs Hinv Ho I H) as (y & q & n & t & _ & _ & _ & Hy & Hs).
    exact (Hstake y q n t Hy Hs).
  - destruct (stake_call_frame K x (KPermitAndStake p from amount) s s' evs Hinv Ho I H) as (y & q & n & t & _ & _ & _ & Hy & Hs).
    exact (Hstake y q n t Hy Hs).
  - apply request_unstake_ok in H. cbv zeta in H. destruct H as (_ & _ & _ & _ & _ & b2 & e & _ & -> & _). exact (Hb a Ha).
  - apply finish_unstake_ok in H. cbv zeta in H.
    destruct H as (_ & _ & _ & done & left & pool & b & _ & _ & _ & _ & ->).
    destruct ((stake_of b staker =? 0) && (length left =? 0)%nat); [|exact (Hb a Ha)].
    rewrite bound_set in Ha. destruct (a =? staker); [congruence|exact (Hb a Ha)].
  - apply finish_slash_ok in H. cbv zeta in H. destruct H as (c & d & burned & _ & _ & _ & _ & _ & H).
    destruct H as [[_ ->]|(b1 & b2 & f & _ & _ & _ & _ & ->)]; exact (Hb a Ha).
Qed.

Lemma bound_outside_run K log s a : stk_run K log s -> bound_to s a <> 0 -> a <> 0 /\ outside K a.
Proof.
  intros [HK (prove & owner & governor & pa & dispenser & s0 & Ha & Hi & Hh) Ho].
  assert (H0 : forall y, bound_to s0 y <> 0 -> y <> 0 /\ outside K y).
  { destruct (initial_claims _ _ _ _ _ _ _ Hi) as (_ & _ & _ & E). intros y Hy. unfold bound_to in Hy. rewrite E in Hy. now destruct Hy. }
  pose proof (initial_inv K prove owner governor pa dispenser s0 HK Ha Hi) as Hinv. clear Hi Ha. revert a H0 Hinv Ho.
  induction Hh as [s|s x c s1 evs log s' Hr _ IH|s x c e log s' Hr _ IH|s o t log s' Hr _ IH]; intros a H0 Hinv Ho.
  - exact (H0 a).
  - apply Forall_cons in Ho as [Ho1 Ho2].
    exact (IH a (bound_outside_step K x c s s1 evs Hinv Ho1 Hr H0) (inv_call K x c s s1 evs Hinv Ho1 Hr) Ho2).
  - apply Forall_cons in Ho as [_ Ho2]. exact (IH a H0 Hinv Ho2).
  - apply Forall_cons in Ho as [Ho1 Ho2].
    exact (IH a H0 (inv_prove K s t Hinv (proj1 (token_op_inv K s o t Hinv Ho1 Hr))) Ho2).
Qed.

(** ** Redeeming *)

Lemma transfer_live t from to n :
  from <> 0 -> to <> 0 -> n <= tk_balance t from -> exists t', tk_transfer t from to n = Ok t'.
Proof.
  intros H1 H2 H3. unfold tk_transfer. destruct (N.eqb_spec from 0); [congruence|]. destruct (N.eqb_spec to 0); [congruence|].
  cbn [orb]. destruct (N.ltb_spec (tk_balance t from) n); [lia|]. eexists. reflexivity.
Qed.

Lemma burn_live t from n : n <= tk_balance t from -> exists t', tk_burn t from n = Ok t'.
Proof.
  intros H. unfold tk_burn. destruct (N.ltb_spec (tk_balance t from) n); [lia|]. eexists. reflexivity.
Qed.

Lemma i_burn_live o n b : o <> 0 -> n <= tk_balance (bk_iprove b) o ->
  exists t, i_burn o n b = Ok (bk_set_iprove t (bk_isupply b - n) b).
Proof.
  intros H1 H2. destruct (burn_live _ _ _ H2) as (t & Ht). exists t. unfold i_burn.
  destruct (N.eqb_spec o 0); [congruence|]. cbn [negb sk_require sk_bind]. now rewrite Ht.
Qed.

Lemma i_preview_live K n b : n <= bk_isupply b -> i_assets K b < two256 ->
  i_preview_redeem K n b = Ok (n * (i_assets K b + 1) / (bk_isupply b + 1)) /\
  n * (i_assets K b + 1) / (bk_isupply b + 1) <= i_assets K b.
Proof.
  intros H1 H2. pose proof (redeem_le_assets (i_assets K b) (bk_isupply b) n H1) as H. split; [|exact H].
  unfold i_preview_redeem. apply mul_div_eq; lia.
Qed.

Lemma i_redeem_live K n a o b :
  o <> 0 -> a <> 0 -> ke_iprove K <> 0 -> i_total_ok b -> n <= tk_balance (bk_iprove b) o -> i_assets K b < two256 ->
  exists b' prove, i_redeem K n a o b = Ok (b', prove).
Proof.
  intros Ho Ha Hi [Ht _] Hn Hs. pose proof (balance_le_total (bk_iprove b) o) as Hle.
  destruct (i_preview_live K n b ltac:(lia) Hs) as [Hp Hpl]. destruct (i_burn_live o n b Ho Hn) as (t & Hb).
  unfold i_redeem. destruct (N.leb_spec n (tk_balance (bk_iprove b) o)); [|lia]. cbn [sk_require sk_bind].
  rewrite Hp. cbn [sk_bind]. rewrite Hb. cbn [sk_bind]. cbn [bk_set_iprove bk_prove].
  destruct (transfer_live (bk_prove b) (ke_iprove K) a _ Hi Ha Hpl) as (t' & Ht'). rewrite Ht'. cbn [sk_token sk_bind].
  do 2 eexists. reflexivity.
Qed.

Lemma i_slash_live K n o b :
  o <> 0 -> i_total_ok b -> n <= tk_balance (bk_iprove b) o -> i_assets K b < two256 ->
  exists b' prove, slash_if_nonzero K o n b = Ok (b', prove) /\ prove + i_assets K b' = i_assets K b.
Proof.
  intros Ho [Ht Hm] Hn Hs. unfold slash_if_nonzero. destruct (N.eqb_spec n 0) as [->|]; [exists b, 0; split; [reflexivity|lia]|].
  pose proof (balance_le_total (bk_iprove b) o) as Hle.
  destruct (i_preview_live K n b ltac:(lia) Hs) as [Hp Hpl].
  destruct (burn_live (bk_prove b) (ke_iprove K) _ Hpl) as (t & Hb).
  destruct (i_burn_live o n (bk_set_prove t b) Ho Hn) as (t' & Hb').
  unfold i_slash. rewrite Hp. cbn [sk_bind]. rewrite Hb. cbn [sk_token sk_bind]. rewrite Hb'. cbn [sk_bind].
  do 2 eexists. split; [reflexivity|].
  apply burn_ok in Hb as (_ & Hle2 & Hbal). unfold i_assets. cbn [bk_set_iprove bk_set_prove bk_prove]. rewrite Hbal, N.eqb_refl.
  unfold i_assets in *. lia.
Qed.

(** ** Finishing unstake requests *)

Section FinishLive.
  Context (K : staking_env) (L a p : N).
  Context (HK : stk_addresses_ok K) (HL : multiple_ok L) (Ha0 : a <> 0) (Ha : outside K a).

  Definition claim_fine (c : unstake_claim) : Prop :=
    0 < uc_factor c /\ uc_factor c <= slash_scalar /\ uc_time c + ke_unstake_period K < two256.

  Definition payable_state (claims : list unstake_claim) (pool : escrow_pool) (b : bank) : Prop :=
    Forall claim_fine claims /\
    ep_factor pool * list_total (weight L) claims <= ep_escrow pool * L /\
    ep_escrow pool <= tk_balance (bk_iprove b) (ke_self K) /\ i_total_ok b /\ i_assets K b < two256.

  Lemma finish_request_live c rest claims pool b :
    Permutation claims (c :: rest) -> payable_state claims pool b ->
    exists pool1 b1 prove ev, finish_request K a p c pool b = Ok (pool1, b1, prove, ev) /\
      payable_state rest pool1 b1 /\ i_assets K b1 + prove = i_assets K b.
  Proof.
    intros Hperm (Hc & Hw & He & Ht & Hs). rewrite Hperm in Hc. apply Forall_cons in Hc as [(Hc1 & Hc2 & Hc3) Hrest].
    rewrite (list_total_perm _ _ _ Hperm), list_total_cons in Hw.
    pose proof (weight_value L (ep_factor pool) c HL Hc1 Hc2) as Hv.
    assert (Hmax : ep_escrow pool <= max_votes_supply).
    { destruct Ht as [Ht1 Ht2]. pose proof (balance_le_total (bk_iprove b) (ke_self K)). lia. }
    assert (Hle : claim_value (ep_factor pool) c <= ep_escrow pool) by (destruct HL as [HL0 _]; nia).
    pose proof (proj1 votes_small) as Hvs.
    assert (Hok : exists pool1 b1 prove ev, finish_request K a p c pool b = Ok (pool1, b1, prove, ev) /\
      i_assets K b1 + prove = i_assets K b).
    { unfold finish_request. rewrite mul_div_eq; [|lia|unfold claim_value in Hle; lia]. cbn [sk_bind].
      fold (claim_value (ep_factor pool) c). destruct (N.ltb_spec (ep_escrow pool) (claim_value (ep_factor pool) c)); [lia|].
      destruct (N.eqb_spec (claim_value (ep_factor pool) c) 0) as [E0|E0].
      - do 4 eexists. split; [reflexivity|]. lia.
      - destruct (i_redeem_live K (claim_value (ep_factor pool) c) a (ke_self K) b (sao_self K HK) Ha0 (sao_iprove K HK) Ht ltac:(lia) Hs)
          as (b1 & prove & Hr).
        rewrite Hr. cbn [sk_bind]. do 4 eexists. split; [reflexivity|].
        apply i_redeem_ok in Hr as (Htr & _ & _ & _ & _ & _ & _). apply transfer_ok in Htr as (_ & Hle2 & Hb).
        unfold i_assets. rewrite Hb, N.eqb_refl. destruct Ha as [_ Ha']. destruct (N.eqb_spec (ke_iprove K) a); [congruence|]. lia. }
    destruct Hok as (pool1 & b1 & prove & ev & Hf & Hassets). exists pool1, b1, prove, ev. split; [exact Hf|]. split; [|exact Hassets].
    pose proof (pr_cons K a p c [] pool b pool1 b1 prove ev [] pool1 b1 Hf (pr_nil K a p pool1 b1)) as Hrun.
    destruct (pay_run_backed K L a p [c] pool b [ev] pool1 b1 Hrun HL) with (R := list_total (weight L) rest) as [Hb _].
    { intros c' Hc'. apply elem_of_list_singleton in Hc' as ->. auto. }
    { rewrite list_total_cons, list_total_nil, N.add_0_r. exact Hw. }
    apply pay_run_ok in Hrun. cbv zeta in Hrun. destruct Hrun as (Hpaid & Hesc & _ & _ & _).
    split; [exact Hrest|]. split; [exact Hb|]. split; [|split; [apply (po_total K _ _ _ Hpaid Ht)|lia]].
    pose proof (po_self K _ _ _ Hpaid). lia.
  Qed.

  Lemma finish_loop_live now fuel : forall i claims pool b,
    payable_state claims pool b ->
    exists claims' pool' b' total evs,
      finish_loop K now a p fuel i claims pool b = Ok (claims', pool', b', total, evs) /\ total + i_assets K b' = i_assets K b.
  Proof.
    induction fuel as [|fuel IH]; intros i claims pool b Hst; cbn [finish_loop].
    - do 5 eexists. split; [reflexivity|]. lia.
    - destruct (claims !! i) as [c|] eqn:Hc; [|do 5 eexists; split; [reflexivity|lia]].
      assert (Hfine : claim_fine c).
      { destruct Hst as (Hf & _). rewrite Forall_lookup in Hf. exact (Hf i c Hc). }
      destruct Hfine as (_ & _ & Htime). unfold sk_add at 1. destruct (N.ltb_spec (uc_time c + ke_unstake_period K) two256); [|lia].
      cbn [sk_bind]. destruct (uc_time c + ke_unstake_period K <=? now); [|exact (IH (S i) claims pool b Hst)].
      destruct (swap_remove_perm claims i c Hc) as (Hperm & _ & _).
      destruct (finish_request_live c (swap_remove i claims) claims pool b Hperm Hst) as (pool1 & b1 & prove & ev & Hf & Hst1 & Hassets).
      rewrite Hf. cbn [sk_bind]. destruct (IH i _ _ _ Hst1) as (claims' & pool' & b' & total & evs & Hl & Htot).
      rewrite Hl. cbn [sk_bind]. destruct Hst as (_ & _ & _ & _ & Hs). unfold sk_add.
      destruct (N.ltb_spec (prove + total) two256); [|lia]. cbn [sk_bind]. do 5 eexists. split; [reflexivity|]. lia.
  Qed.
End FinishLive.

Lemma finish_unstake_live K L x a s :
  multiple_ok L -> stk_inv K s -> a <> 0 -> outside K a -> backed L (bound_to s a) s ->
  bound_to s a <> 0 -> claims_of s a <> [] -> ~ slash_pending s (bound_to s a) ->
  (forall c, c ∈ claims_of s a -> uc_time c + ke_unstake_period K < two256) ->
  i_assets K (sk_bank s) < two256 ->
  exists s' evs, k_finish_unstake K x a s = Ok (s', evs).
Proof.
  intros HL Hinv Ha0 Ha Hb Hbound Hcl Hns Htime Hs. unfold k_finish_unstake. set (p := bound_to s a) in *.
  destruct (N.eqb_spec p 0); [congruence|]. cbn [negb sk_require sk_bind].
  destruct (claims_of s a) as [|c0 l0] eqn:El; [congruence|]. cbn [length Nat.eqb negb sk_require sk_bind]. rewrite <- El in *.
  unfold no_slash_requests. destruct (N.ltb_spec 0 (pending_of s p)) as [Hlt|_].
  { apply (pending_iff K s p Hinv) in Hlt. contradiction. }
  cbn [negb sk_require sk_bind].
  assert (Hst : payable_state K L (claims_of s a) (pool_of s p) (sk_bank s)).
  { split; [|split; [|split; [|split]]].
    - apply Forall_forall. intros c Hc. destruct (ki_claims K s Hinv a c Hc) as [[? ?] _]. split; [assumption|]. split; [assumption|exact (Htime c Hc)].
    - destruct Hb as [B1 _ _]. etransitivity; [|exact B1]. apply N.mul_le_mono_l.
      exact (claim_sum_ge (weight L) (sk_bound s) (sk_claims s) a).
    - rewrite (ki_escrow K s Hinv). apply escrow_le_all.
    - exact (ki_total K s Hinv).
    - exact Hs. }
  destruct (finish_loop_live K L a p (ki_addresses K s Hinv) HL Ha0 Ha (kx_time x) (S (length l0)) 0%nat _ _ _ Hst)
    as (claims' & pool' & b' & total & evs & Hl & _).
  rewrite Hl. cbn [sk_bind]. do 2 eexists. reflexivity.
Qed.

(** ** Requesting *)

Lemma request_unstake_live K x n s :
  stk_inv K s -> kx_sender x <> 0 -> let a := kx_sender x in
  n <> 0 -> n <= stake_of (sk_bank s) a -> N.of_nat (length (claims_of s a)) < ke_max_requests K ->
  N.of_nat (length (claims_of s a)) < two64 -> ~ slash_pending s (bound_to s a) ->
  bk_stsupply (sk_bank s) + 1 < two256 ->
  exists s' evs, k_request_unstake K x n s = Ok (s', evs).
Proof.
  intros Hinv Ha0. cbv zeta. set (a := kx_sender x) in *. set (p := bound_to s a). intros Hn Hle Hmax Hlen Hns Hsup.
  assert (Hp : p <> 0) by (intros E; destruct (ki_unbound K s Hinv a E) as [E1 _]; lia).
  destruct (ki_provers K s Hinv p (ki_bound K s Hinv a Hp)) as (Hp0 & Hps & Hpi).
  pose proof (ki_addresses K s Hinv) as HK.
  unfold k_request_unstake. fold a. fold p.
  destruct (N.eqb_spec n 0); [congruence|]. cbn [negb sk_require sk_bind].
  destruct (N.eqb_spec p 0); [congruence|]. cbn [negb sk_require sk_bind].
  destruct (N.leb_spec (ke_max_requests K) (N.of_nat (length (claims_of s a)))); [lia|]. cbn [negb sk_require sk_bind].
  unfold no_slash_requests. destruct (N.ltb_spec 0 (pending_of s p)) as [Hlt|_].
  { apply (pending_iff K s p Hinv) in Hlt. contradiction. }
  cbn [negb sk_require sk_bind].
  destruct (N.ltb_spec (stake_of (sk_bank s) a) n); [lia|]. cbn [negb sk_require sk_bind].
  unfold st_burn. destruct (N.eqb_spec a 0); [congruence|]. cbn [negb sk_require sk_bind].
  destruct (N.leb_spec n (stake_of (sk_bank s) a)); [|lia]. cbn [sk_require sk_bind].
  set (b1 := bk_set_stake a (stake_of (sk_bank s) a - n) (bk_stsupply (sk_bank s) - n) (sk_bank s)).
  pose proof (stake_le_sum (sk_bound s) (bk_stakes (sk_bank s)) a) as Hshare.
  change (default 0 (sk_bound s !! a)) with p in Hshare. rewrite <- stakes_on_sum, <- (ki_shares K s Hinv p) in Hshare.
  change (default 0 (bk_stakes (sk_bank s) !! a)) with (stake_of (sk_bank s) a) in Hshare.
  assert (Hsts : shares_of (sk_bank s) p <= bk_stsupply (sk_bank s)).
  { rewrite (ki_shares K s Hinv p), (proj1 (ki_stsupply K s Hinv)). apply map_total_le. intros k v _. destruct (_ =? _); lia. }
  pose proof (redeem_le_assets (v_assets p (sk_bank s)) (shares_of (sk_bank s) p) n ltac:(lia)) as Hred.
  destruct (ki_total K s Hinv) as [Ht1 Ht2]. pose proof (balance_le_total (bk_iprove (sk_bank s)) p) as Hbt.
  pose proof (proj1 votes_small) as Hvs.
  unfold v_redeem. change (shares_of b1 p) with (shares_of (sk_bank s) p).
  destruct (N.leb_spec n (shares_of (sk_bank s) p)); [|lia]. cbn [sk_require sk_bind].
  unfold v_preview_redeem. change (shares_of b1 p) with (shares_of (sk_bank s) p).
  unfold sk_add at 1. destruct (N.ltb_spec (shares_of (sk_bank s) p + 1) two256); [|lia]. cbn [sk_bind].
  change (v_assets p b1) with (v_assets p (sk_bank s)). unfold v_assets in *.
  rewrite mul_div_eq by lia. cbn [sk_bind]. change (bk_iprove b1) with (bk_iprove (sk_bank s)).
  destruct (transfer_live (bk_iprove (sk_bank s)) p (ke_self K) _ Hp0 (sao_self K HK) Hred) as (t & Ht).
  rewrite Ht. cbn [sk_token sk_bind].
  pose proof (escrow_le_all s p) as Hesc. rewrite <- (ki_escrow K s Hinv) in Hesc.
  pose proof (balance_le_total (bk_iprove (sk_bank s)) (ke_self K)) as Hbs.
  unfold sk_add. destruct (N.ltb_spec (ep_escrow (pool_of s p) + n * (tk_balance (bk_iprove (sk_bank s)) p + 1) / (shares_of (sk_bank s) p + 1)) two256) as [_|Hge].
  2: { exfalso. assert (max_votes_supply + max_votes_supply < two256) by reflexivity. lia. }
  cbn [sk_bind]. destruct (N.ltb_spec (N.of_nat (length (claims_of s a))) two64); [|lia]. cbn [sk_require sk_bind].
  do 2 eexists. reflexivity.
Qed.

(** ** Slash requests *)

Lemma cancel_slash_live K x p i s c :
  p ∈ rg_provers (sk_registry s) -> slashes_of s p !! N.to_nat i = Some c -> sc_resolved c = false ->
  sc_time c + ke_cancel_period K + kx_voting_delay x + kx_voting_period x <= kx_time x -> kx_time x < two256 ->
  exists s' evs, k_cancel_slash K x p i s = Ok (s', evs).
Proof.
  intros Hp Hc Hr Ht Hx. unfold k_cancel_slash, is_prover. rewrite bool_decide_true by exact Hp. cbn [sk_require sk_bind].
  unfold slash_at. rewrite Hc. cbn [sk_bind]. rewrite Hr. cbn [negb sk_require sk_bind].
  unfold sk_add. destruct (N.ltb_spec (sc_time c + ke_cancel_period K) two256); [|lia]. cbn [sk_bind].
  destruct (N.ltb_spec (sc_time c + ke_cancel_period K + kx_voting_delay x) two256); [|lia]. cbn [sk_bind].
  destruct (N.ltb_spec (sc_time c + ke_cancel_period K + kx_voting_delay x + kx_voting_period x) two256); [|lia]. cbn [sk_bind].
  destruct (N.ltb_spec (kx_time x) (sc_time c + ke_cancel_period K + kx_voting_delay x + kx_voting_period x)); [lia|].
  cbn [negb sk_require sk_bind]. do 2 eexists. reflexivity.
Qed.

Lemma deactivate_live p s :
  v_assets p (sk_bank s) * 10 ^ 18 < two256 -> exists s', deactivate_if_below_min p s = Ok s'.
Proof.
  intros H. unfold deactivate_if_below_min. destruct (is_deactivated s p); [eexists; reflexivity|].
  destruct (N.eqb_spec (shares_of (sk_bank s) p) 0) as [|Hs]; [eexists; reflexivity|].
  rewrite mul_div_eq; [|exact Hs|].
  - cbn [sk_bind]. destruct (_ <? _); eexists; reflexivity.
  - apply N.div_lt_upper_bound; [exact Hs|]. nia.
Qed.

Lemma slash_split amount E V : amount <= V + E -> V + E <> 0 -> amount - amount * E / (V + E) <= V /\ amount * E / (V + E) <= amount.
Proof.
  intros H H0. set (q := amount * E / (V + E)).
  assert (Hq : q <= amount) by (apply N.div_le_upper_bound; [exact H0|]; nia). split; [|exact Hq].
  destruct (N.le_gt_cases (amount - q) V) as [|Hgt]; [assumption|]. exfalso.
  assert (Hlt : amount * E < (V + E) * (q + 1)) by (unfold q; pose proof (N.mul_succ_div_gt (amount * E) (V + E) H0); lia).
  assert (q + V + 1 <= amount) by lia.
  assert ((V + E) * (q + 1) <= (V + E) * (amount - V)) by (apply N.mul_le_mono_l; lia).
  assert ((V + E) * (amount - V) <= amount * E).
  { clear Hlt. clearbody q. assert (Hk : amount = V + (amount - V)) by lia. assert (amount - V <= E) by lia.
    set (k := amount - V) in *. clearbody k. rewrite Hk. nia. }
  lia.
Qed.

Lemma slashed_factor_live f total remaining :
  total <> 0 -> remaining <= total -> f <= slash_scalar -> exists f', slashed_factor f total remaining = Ok f'.
Proof.
  intros H0 Hr Hf. unfold slashed_factor. destruct (N.eqb_spec remaining 0); [eexists; reflexivity|].
  assert (Hsc : slash_scalar < two256) by reflexivity. pose proof scalar_pos as Hs.
  assert (Hr1 : remaining * slash_scalar / total <= slash_scalar).
  { apply N.div_le_upper_bound; [exact H0|]. apply N.mul_le_mono_r. exact Hr. }
  rewrite mul_div_eq; [|exact H0|exact (N.le_lt_trans _ _ _ Hr1 Hsc)]. cbn [sk_bind].
  set (g := if f =? 0 then slash_scalar else f).
  assert (Hg : g <= slash_scalar) by (unfold g; destruct (f =? 0); [reflexivity|exact Hf]).
  pose proof (N.le_trans _ _ _ (slashed_factor_le g total remaining H0 Hr) Hg) as Hr2.
  rewrite mul_div_eq; [eexists; reflexivity|exact Hs|exact (N.le_lt_trans _ _ _ Hr2 Hsc)].
Qed.

Lemma finish_slash_live K x p i s c :
  stk_inv K s -> kx_sender x = sk_owner s -> p ∈ rg_provers (sk_registry s) ->
  slashes_of s p !! N.to_nat i = Some c -> sc_resolved c = false ->
  v_assets p (sk_bank s) * 10 ^ 18 < two256 -> i_assets K (sk_bank s) < two256 ->
  exists s' evs, k_finish_slash K x p i s = Ok (s', evs).
Proof.
  intros Hinv Hx Hp Hc Hr Hv Hs. destruct (ki_provers K s Hinv p Hp) as (Hp0 & Hps & Hpi).
  pose proof (ki_addresses K s Hinv) as HK. pose proof (ki_total K s Hinv) as Ht. pose proof (proj1 votes_small) as Hvs.
  unfold k_finish_slash. rewrite Hx, N.eqb_refl. cbn [sk_require sk_bind].
  unfold is_prover. rewrite bool_decide_true by exact Hp. cbn [sk_require sk_bind].
  unfold slash_at. rewrite Hc. cbn [sk_bind]. rewrite Hr. cbn [negb sk_require sk_bind].
  pose proof (balance_le_total (bk_iprove (sk_bank s)) p) as Hbp.
  pose proof (escrow_le_all s p) as Hesc. rewrite <- (ki_escrow K s Hinv) in Hesc.
  pose proof (balance_le_total (bk_iprove (sk_bank s)) (ke_self K)) as Hbs.
  assert (Hdbl : max_votes_supply + max_votes_supply < two256) by reflexivity.
  destruct Ht as [Ht1 Ht2]. unfold v_assets in *.
  set (V := tk_balance (bk_iprove (sk_bank s)) p) in *. set (E := ep_escrow (pool_of s p)) in *.
  unfold sk_add at 1. destruct (N.ltb_spec (V + E) two256); [|lia]. cbn [sk_bind].
  set (amount := if V + E <? sc_amount c then V + E else sc_amount c).
  assert (Hamt : amount <= V + E) by (unfold amount; destruct (N.ltb_spec (V + E) (sc_amount c)); lia).
  destruct (N.eqb_spec amount 0) as [E0|E0].
  - cbn [sk_bind]. destruct (deactivate_live p (resolve_slash p i c s)) as (s3 & Hd); [exact Hv|].
    rewrite Hd. cbn [sk_bind]. do 2 eexists. reflexivity.
  - destruct (slash_split amount E V Hamt ltac:(lia)) as [Hsp1 Hsp2].
    assert (Hsp3 : amount * E / (V + E) <= E) by (apply from_escrow_le; lia).
    rewrite mul_div_eq by lia. cbn [sk_bind]. change (sk_bank (resolve_slash p i c s)) with (sk_bank s).
    set (fe := amount * E / (V + E)) in *.
    destruct (i_slash_live K fe (ke_self K) (sk_bank s) (sao_self K HK) (ki_total K s Hinv) ltac:(lia) Hs) as (b1 & prove1 & Hs1 & Ha1).
    rewrite Hs1. cbn [sk_bind]. pose proof (slash_burned _ _ _ _ _ _ Hs1) as Hb1.
    destruct (i_slash_live K (amount - fe) p b1 Hp0 (bf_total _ _ _ _ _ Hb1 (ki_total K s Hinv))) as (b2 & prove2 & Hs2 & Ha2).
    { rewrite (bf_other _ _ _ _ _ Hb1) by congruence. exact Hsp1. }
    { lia. }
    rewrite Hs2. cbn [sk_bind]. pose proof (slash_burned _ _ _ _ _ _ Hs2) as Hb2.
    assert (Hfac : exists f, slashed_factor (ep_factor (pool_of s p)) (V + E) (V + E - amount) = Ok f).
    { apply slashed_factor_live; [lia|lia|apply (ki_pool K s Hinv)]. }
    destruct Hfac as (f & Hf). rewrite Hf. cbn [sk_bind]. unfold sk_add.
    destruct (N.ltb_spec (prove1 + prove2) two256); [|lia]. cbn [sk_bind].
    match goal with |- context [deactivate_if_below_min p ?s2] => destruct (deactivate_live p s2) as (s3 & Hd) end.
    { sk_simpl. unfold v_assets. pose proof (bf_owner _ _ _ _ _ Hb2) as Hbo.
      rewrite (bf_other _ _ _ _ _ Hb1) in Hbo by congruence. fold V in Hbo.
      apply N.le_lt_trans with (V * 10 ^ 18); [|exact Hv]. apply N.mul_le_mono_r. lia. }
    rewrite Hd. cbn [sk_bind]. do 2 eexists. reflexivity.
Qed.
