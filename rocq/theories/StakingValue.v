(** Rewards, prices and stakes over histories of the staking contract. *)
From Verif Require Export StakingLaws.
From Coq Require Import Lia ZifyBool ZifyN ZifyNat.
Open Scope N_scope.

(** ** Rewards *)

(** Sum of the rates in force from second [t0] to second [t]. *)
Definition earned_from (rate : N) (log : list stk_entry) (t0 t : N) : N :=
  list_total (fun n => rate_at rate log (N.of_nat n)) (seq (N.to_nat t0) (N.to_nat t - N.to_nat t0)).

Lemma total_ext {X} (f g : X -> N) l : (forall x, x ∈ l -> f x = g x) -> list_total f l = list_total g l.
Proof.
  unfold list_total. induction l as [|x l IH]; intros H; cbn [fold_right]; [reflexivity|].
  rewrite (H x ltac:(left)). f_equal. apply IH. intros y Hy. apply H. right. exact Hy.
Qed.

Lemma total_const {X} (n : N) (l : list X) : list_total (fun _ => n) l = n * N.of_nat (length l).
Proof. induction l as [|x l IH]; [cbn [length list_total fold_right]; lia|]. rewrite list_total_cons, IH. cbn [length]. lia. Qed.

(** A rate holds until the next update. *)
Lemma rate_before rate log since now t : in_order since log now -> t < since -> rate_at rate log t = rate.
Proof.
  revert since. induction log as [|e log IH]; intros since Ho Ht; [reflexivity|].
  destruct e as [x c evs s|x c e|o]; cbn [in_order rate_at] in *; [|now apply (IH since)|now apply (IH since)].
  destruct Ho as [H1 H2]. destruct c; try (apply (IH (kx_time x)); [exact H2|lia]).
  destruct (N.leb_spec (kx_time x) t); [lia|]. apply (IH (kx_time x)); [exact H2|lia].
Qed.

(** Other accepted calls do not change the rates. *)
Definition sets_rate (c : staking_call) : Prop := match c with KUpdateRate _ => True | _ => False end.

Lemma rate_other rate x c evs s log t :
  ~ sets_rate c -> rate_at rate (KAccepted x c evs s :: log) t = rate_at rate log t.
Proof. destruct c; cbn [sets_rate rate_at]; tauto. Qed.

Lemma order_le since log now : in_order since log now -> since <= now.
Proof.
  revert since. induction log as [|e log IH]; intros since H; [exact H|].
  destruct e; cbn [in_order] in H; [|now apply IH|now apply IH]. destruct H as [H1 H2]. apply IH in H2. lia.
Qed.

Lemma order_weaken since since' log now : since' <= since -> in_order since log now -> in_order since' log now.
Proof.
  revert since since'. induction log as [|e log IH]; intros since since' Hle H; cbn [in_order] in *; [lia|].
  destruct e; [split; [lia|apply H]|now apply (IH since)|now apply (IH since)].
Qed.

Lemma earned_split rate log t0 t1 t : t0 <= t1 -> t1 <= t ->
  earned_from rate log t0 t = earned_from rate log t0 t1 + earned_from rate log t1 t.
Proof.
  intros H0 H1. unfold earned_from.
  replace (N.to_nat t - N.to_nat t0)%nat with ((N.to_nat t1 - N.to_nat t0) + (N.to_nat t - N.to_nat t1))%nat by lia.
  rewrite seq_app, list_total_app. f_equal. f_equal. f_equal. lia.
Qed.

Lemma earned_const rate log t0 t1 since now :
  in_order since log now -> t1 <= since -> earned_from rate log t0 t1 = (t1 - t0) * rate.
Proof.
  intros Ho Hle. unfold earned_from.
  rewrite (total_ext _ (fun _ => rate)).
  - rewrite total_const, seq_length. lia.
  - intros n Hn. apply elem_of_list_In, in_seq in Hn. apply (rate_before rate log since now); [exact Ho|lia].
Qed.

Lemma dispensing_other K x c s s' evs :
  stk_inv K s -> by_outsider K (KAccepted x c evs s') -> staking_run K x c s = Ok (s', evs) ->
  match c with KUpdateRate _ | KDispense _ => False | _ => True end ->
  dp_rate (sk_dispensing s') = dp_rate (sk_dispensing s) /\ dp_since (sk_dispensing s') = dp_since (sk_dispensing s) /\
  dp_earned (sk_dispensing s') = dp_earned (sk_dispensing s) /\
  dp_distributed (sk_dispensing s') = dp_distributed (sk_dispensing s) /\ list_total ev_dispensed evs = 0.
Proof.
  intros Hinv Ho H Hc.
  destruct c; try contradiction; cbn [staking_run] in H.
  - destruct (stake_call_frame K x (KStake p amount) s s' evs Hinv Ho I H) as (b & q & n & t & _ & _ & _ & _ & Hs).
    apply stake_for_ok in Hs as (_ & _ & _ & _ & _ & ? & ? & ? & ? & _ & _ & _ & _ & _ & _ & -> & ->).
    sk_simpl. now destruct (_ =? 0).
  - destruct (stake_call_frame K x (KPermitAndStake p from amount) s s' evs Hinv Ho I H) as (b & q & n & t & _ & _ & _ & _ & Hs).
    apply stake_for_ok in Hs as (_ & _ & _ & _ & _ & ? & ? & ? & ? & _ & _ & _ & _ & _ & _ & -> & ->).
    sk_simpl. now destruct (_ =? 0).
  - apply request_unstake_ok in H. cbv zeta in H. destruct H as (_ & _ & _ & _ & _ & b2 & e & _ & -> & ->).
    repeat split.
  - apply finish_unstake_ok in H. cbv zeta in H.
    destruct H as (_ & _ & _ & done & left & pool & b & Hrun & _ & _ & _ & ->).
    apply pay_run_ok in Hrun. cbv zeta in Hrun. destruct Hrun as (_ & _ & _ & _ & Hev).
    apply (paid_events staker (bound_to s staker) (fun c i => i <= claim_value (ep_factor (pool_of s (bound_to s staker))) c)) in Hev
      as (_ & _ & _ & _ & _ & E).
    rewrite E. now destruct (_ && (length left =? 0)%nat).
  - apply request_slash_ok in H as (_ & _ & _ & _ & -> & ->). repeat split.
  - apply cancel_slash_ok in H as (c & _ & _ & _ & _ & -> & ->). repeat split.
  - apply finish_slash_ok in H. cbv zeta in H. destruct H as (c & d & burned & _ & _ & _ & _ & -> & H).
    destruct H as [[_ ->]|(b1 & b2 & f & _ & _ & _ & _ & ->)]; repeat split.
  - unfold k_set_dispenser in H. sk_inv. subst. repeat split.
  - apply create_prover_ok in H as (d & n & _ & -> & ->). repeat split.
  - apply reward_ok in H as (_ & -> & b & sh & _ & ->). repeat split.
  - unfold k_transfer_ownership in H. sk_inv. subst. repeat split.
  - unfold k_renounce_ownership in H. sk_inv. subst. repeat split.
Qed.

(** Earned and distributed rewards follow the log. *)
Lemma rewards_history K s log s' now since :
  stk_history K s log s' -> stk_inv K s -> Forall (by_outsider K) log -> in_order since log now ->
  dp_since (sk_dispensing s) <= since ->
  dp_distributed (sk_dispensing s) <= dp_earned (sk_dispensing s) + (since - dp_since (sk_dispensing s)) * dp_rate (sk_dispensing s) ->
  let d := sk_dispensing s in let d' := sk_dispensing s' in
  dp_since d' <= now /\
  dp_earned d' + (now - dp_since d') * dp_rate d' = dp_earned d + earned_from (dp_rate d) log (dp_since d) now /\
  dp_distributed d' = dp_distributed d + list_total ev_dispensed (events log) /\
  dp_distributed d' <= dp_earned d' + (now - dp_since d') * dp_rate d'.
Proof.
  intros Hh. revert since. induction Hh as [s|s x c s1 evs log s' Hr _ IH|s x c e log s' Hr _ IH|s o t log s' Hr _ IH];
    intros since Hinv Ho Hord Hs Hd; cbv zeta in *.
  - cbn [in_order] in Hord. totals. split; [lia|].
    rewrite (earned_const (dp_rate (sk_dispensing s)) [] _ now now now); [|cbn [in_order]; lia|lia]. split; [lia|]. split; [lia|].
    assert (since - dp_since (sk_dispensing s) <= now - dp_since (sk_dispensing s)) by lia. nia.
  - apply Forall_cons in Ho as [Ho1 Ho2]. cbn [in_order] in Hord. destruct Hord as [Hle Hord].
    pose proof (inv_call K x c s s1 evs Hinv Ho1 Hr) as Hinv1.
    assert (Hmono : dp_distributed (sk_dispensing s) <= dp_earned (sk_dispensing s) + (kx_time x - dp_since (sk_dispensing s)) * dp_rate (sk_dispensing s)).
    { assert (since - dp_since (sk_dispensing s) <= kx_time x - dp_since (sk_dispensing s)) by lia. nia. }
    cbn [events flat_map]. fold (events log). rewrite list_total_app.
    assert (Hcase : match c with KUpdateRate _ | KDispense _ => False | _ => True end ->
      dp_since (sk_dispensing s') <= now /\
      dp_earned (sk_dispensing s') + (now - dp_since (sk_dispensing s')) * dp_rate (sk_dispensing s')
        = dp_earned (sk_dispensing s) + earned_from (dp_rate (sk_dispensing s)) (KAccepted x c evs s1 :: log) (dp_since (sk_dispensing s)) now /\
      dp_distributed (sk_dispensing s') = dp_distributed (sk_dispensing s) + (list_total ev_dispensed evs + list_total ev_dispensed (events log)) /\
      dp_distributed (sk_dispensing s') <= dp_earned (sk_dispensing s') + (now - dp_since (sk_dispensing s')) * dp_rate (sk_dispensing s')).
    { intros Hc. destruct (dispensing_other K x c s s1 evs Hinv Ho1 Hr Hc) as (D1 & D2 & D3 & D4 & D5).
      specialize (IH (kx_time x) Hinv1 Ho2 Hord). rewrite D1, D2, D3, D4 in IH. rewrite D5.
      specialize (IH ltac:(lia) ltac:(lia)). destruct IH as (I1 & I2 & I3 & I4).
      split; [exact I1|]. split; [|split; [lia|exact I4]]. rewrite I2. f_equal. unfold earned_from. apply total_ext.
      intros n _. symmetry. apply rate_other. now destruct c. }
    destruct c as [| | | | | | |n| |r| | | |]; try exact (Hcase I).
    + apply dispense_ok in Hr as (av & t & _ & Hav & Hne & Hamt & _ & -> & ->). cbv zeta in *.
      set (amount := if n =? u256_max then av else n) in *. sk_simpl.
      assert (Hav2 : av + dp_distributed (sk_dispensing s) = dp_earned (sk_dispensing s) + (kx_time x - dp_since (sk_dispensing s)) * dp_rate (sk_dispensing s)).
      { unfold max_dispense in Hav. sk_inv. subst. lia. }
      specialize (IH (kx_time x) Hinv1 Ho2 Hord ltac:(lia) ltac:(lia)). destruct IH as (I1 & I2 & I3 & I4).
      split; [exact I1|]. split; [exact I2|]. totals. cbn [ev_dispensed]. split; [|exact I4]. rewrite I3. lia.
    + unfold staking_run, k_update_rate in Hr. sk_inv. subst. sk_simpl.
      specialize (IH (kx_time x) Hinv1 Ho2 Hord ltac:(lia) ltac:(lia)). destruct IH as (I1 & I2 & I3 & I4).
      split; [exact I1|]. split; [|totals; split; [rewrite I3; lia|exact I4]]. rewrite I2.
      pose proof (order_le _ _ _ Hord) as Hnow.
      rewrite (earned_split _ _ (dp_since (sk_dispensing s)) (kx_time x) now) by lia.
      rewrite N.add_assoc. f_equal.
      * f_equal. unfold earned_from. erewrite total_ext.
        -- change (list_total (fun n => rate_at (dp_rate (sk_dispensing s)) log (N.of_nat n))
             (seq (N.to_nat (dp_since (sk_dispensing s))) (N.to_nat (kx_time x) - N.to_nat (dp_since (sk_dispensing s)))))
             with (earned_from (dp_rate (sk_dispensing s)) log (dp_since (sk_dispensing s)) (kx_time x)).
           symmetry. apply (earned_const _ _ _ _ (kx_time x) now Hord). lia.
        -- intros k Hk. apply elem_of_list_In, in_seq in Hk. cbn [rate_at].
           destruct (N.leb_spec (kx_time x) (N.of_nat k)); [lia|reflexivity].
      * unfold earned_from. apply total_ext. intros k Hk. apply elem_of_list_In, in_seq in Hk. cbn [rate_at].
        destruct (N.leb_spec (kx_time x) (N.of_nat k)); [reflexivity|lia].
  - apply Forall_cons in Ho as [_ Ho2]. totals. exact (IH since Hinv Ho2 Hord Hs Hd).
  - apply Forall_cons in Ho as [Ho1 Ho2]. totals.
    exact (IH since (inv_prove K s t Hinv (proj1 (token_op_inv K s o t Hinv Ho1 Hr))) Ho2 Hord Hs Hd).
Qed.

Lemma initial_dispensing K prove owner governor pa dispenser s0 :
  staking_initialize K prove owner governor pa dispenser = Some s0 ->
  sk_dispensing s0 = Dispensing dispenser 0 0 0 0.
Proof. unfold staking_initialize. destruct (forallb _ _); [intros [= <-]; reflexivity|discriminate]. Qed.

Lemma initial_claims K prove owner governor pa dispenser s0 :
  staking_initialize K prove owner governor pa dispenser = Some s0 ->
  sk_claims s0 = ∅ /\ sk_pools s0 = ∅ /\ sk_slashes s0 = ∅ /\ sk_bound s0 = ∅.
Proof. unfold staking_initialize. destruct (forallb _ _); [intros [= <-]; auto|discriminate]. Qed.

Lemma run_rewards K log s now :
  stk_run K log s -> in_order 0 log now ->
  let d := sk_dispensing s in
  dp_since d <= now /\ dp_earned d + (now - dp_since d) * dp_rate d = earned log now /\
  dp_distributed d = list_total ev_dispensed (events log) /\ dp_distributed d <= earned log now.
Proof.
  intros [HK (prove & owner & governor & pa & dispenser & s0 & Ha & Hi & Hh) Ho] Hord.
  pose proof (initial_inv K prove owner governor pa dispenser s0 HK Ha Hi) as Hinv.
  pose proof (initial_dispensing _ _ _ _ _ _ _ Hi) as Hd.
  pose proof (rewards_history K s0 log s now 0 Hh Hinv Ho Hord) as H. rewrite Hd in H. sk_simpl.
  specialize (H ltac:(lia) ltac:(lia)). cbv zeta in *. destruct H as (H1 & H2 & H3 & H4).
  assert (earned_from 0 log 0 now = earned log now) as E.
  { unfold earned_from, earned. now rewrite Nat.sub_0_r. }
  rewrite E in H2. split; [exact H1|]. split; [lia|]. split; [lia|]. lia.
Qed.

Lemma dispense_exact K x amount s s' evs earned_now paid_before :
  stk_addresses_ok K ->
  dp_since (sk_dispensing s) <= kx_time x ->
  dp_earned (sk_dispensing s) + (kx_time x - dp_since (sk_dispensing s)) * dp_rate (sk_dispensing s) = earned_now ->
  dp_distributed (sk_dispensing s) = paid_before ->
  staking_run K x (KDispense amount) s = Ok (s', evs) ->
  exists paid,
    evs = [EvDispense paid] /\ 0 < paid /\ kx_sender x = dp_dispenser (sk_dispensing s) /\
    paid_before + paid <= earned_now /\
    (if amount =? two256 - 1 then paid_before + paid = earned_now else paid = amount) /\
    tk_balance (bk_prove (sk_bank s')) (ke_self K) + paid = tk_balance (bk_prove (sk_bank s)) (ke_self K) /\
    i_assets K (sk_bank s') = i_assets K (sk_bank s) + paid /\
    (forall a, outside K a -> tk_balance (bk_prove (sk_bank s')) a = tk_balance (bk_prove (sk_bank s)) a) /\
    bk_iprove (sk_bank s') = bk_iprove (sk_bank s) /\ bk_isupply (sk_bank s') = bk_isupply (sk_bank s) /\
    (forall a, stake_of (sk_bank s') a = stake_of (sk_bank s) a) /\
    sk_claims s' = sk_claims s /\ sk_slashes s' = sk_slashes s /\ sk_pools s' = sk_pools s /\
    sk_bound s' = sk_bound s /\ sk_registry s' = sk_registry s.
Proof.
  intros HK Hs He Hp H. pose proof (sao_distinct K HK) as Hd. cbn [staking_run] in H.
  unfold k_dispense, max_dispense in H. sk_inv.
  match goal with H : [_] = evs |- _ => rewrite <- H; clear H end.
  match goal with H : _ = s' |- _ => rewrite <- H; clear H end.
  match goal with H : tk_transfer _ _ _ ?n = Ok _ |- _ => set (paid := n) in *; apply transfer_ok in H as (_ & Hle & Hbal) end.
  exists paid. split; [reflexivity|]. sk_simpl. unfold i_assets. sk_simpl.
  assert (Hm : (if amount =? two256 - 1 then paid_before + paid = earned_now else paid = amount)).
  { unfold paid, u256_max in *. destruct (N.eqb_spec amount (two256 - 1)); [lia|reflexivity]. }
  rewrite !Hbal. rewrite N.eqb_refl.
  destruct (N.eqb_spec (ke_self K) (ke_iprove K)) as [E|_]; [congruence|].
  destruct (N.eqb_spec (ke_iprove K) (ke_self K)) as [E|_]; [congruence|]. rewrite N.eqb_refl.
  repeat match goal with |- _ /\ _ => split end; try reflexivity; try lia; try exact Hm.
  intros a [A1 A2]. rewrite Hbal. destruct (N.eqb_spec a (ke_self K)); [congruence|].
  destruct (N.eqb_spec a (ke_iprove K)); [congruence|]. lia.
Qed.

Lemma dispense_live K x n s earned_now paid_before :
  stk_addresses_ok K ->
  dp_since (sk_dispensing s) <= kx_time x ->
  dp_earned (sk_dispensing s) + (kx_time x - dp_since (sk_dispensing s)) * dp_rate (sk_dispensing s) = earned_now ->
  dp_distributed (sk_dispensing s) = paid_before ->
  kx_sender x = dp_dispenser (sk_dispensing s) -> n <> 0 ->
  paid_before + n <= earned_now -> earned_now < two256 - 1 ->
  n <= tk_balance (bk_prove (sk_bank s)) (ke_self K) ->
  exists s' evs, staking_run K x (KDispense n) s = Ok (s', evs).
Proof.
  intros HK Hs He Hp Hd Hn Hle Hf Hh. cbn [staking_run]. unfold k_dispense, max_dispense.
  destruct (sk_dispensing s) as [disp rate since earned0 dist]. sk_simpl. rewrite Hd. subst earned_now paid_before.
  set (t := (kx_time x - since) * rate) in *.
  unfold sk_require, sk_sub, sk_mul, sk_add. cbn [sk_bind].
  rewrite N.eqb_refl. cbn [sk_bind].
  destruct (N.leb_spec since (kx_time x)); [|lia]. cbn [sk_bind]. fold t.
  destruct (N.ltb_spec t two256); [|lia]. cbn [sk_bind].
  destruct (N.ltb_spec (earned0 + t) two256); [|lia]. cbn [sk_bind].
  destruct (N.leb_spec dist (earned0 + t)); [|lia]. cbn [sk_bind].
  unfold u256_max. destruct (N.eqb_spec n (two256 - 1)); [lia|].
  destruct (N.eqb_spec n 0); [lia|]. cbn [negb sk_bind].
  destruct (N.ltb_spec (earned0 + t - dist) n); [lia|]. cbn [negb sk_bind].
  destruct (N.ltb_spec (dist + n) two256); [|lia]. cbn [sk_bind].
  unfold tk_transfer. destruct (N.eqb_spec (ke_self K) 0); [destruct (sao_self K HK); assumption|].
  destruct (N.eqb_spec (ke_iprove K) 0); [destruct (sao_iprove K HK); assumption|]. cbn [orb].
  destruct (N.ltb_spec (tk_balance (bk_prove (sk_bank s)) (ke_self K)) n); [lia|].
  cbn [sk_token sk_bind]. eauto.
Qed.

(** ** Prices *)

Lemma v_price_same p b b' : v_assets p b' = v_assets p b -> shares_of b' p = shares_of b p -> v_price p b b'.
Proof. unfold v_price. intros -> ->. apply price_refl. Qed.

Lemma price_step K x c s s' evs :
  stk_inv K s -> by_outsider K (KAccepted x c evs s') -> staking_run K x c s = Ok (s', evs) ->
  i_price K (sk_bank s) (sk_bank s') /\
  (forall p, p ∈ rg_provers (sk_registry s) -> no_slash_of p (KAccepted x c evs s') -> v_price p (sk_bank s) (sk_bank s')).
Proof.
  intros Hinv Ho H. pose proof (ki_addresses K s Hinv) as HK. pose proof (ki_total K s Hinv) as Ht.
  assert (Hstake : forall a q n t, q ∈ rg_provers (sk_registry s) -> allow_ok K t ->
    i_assets K (sk_bank s) = tk_balance t (ke_iprove K) ->
    stake_for K a q n (sk_set_bank (bk_set_prove t (sk_bank s)) s) = Ok (s', evs) ->
    i_price K (sk_bank s) (sk_bank s') /\ (forall p, p ∈ rg_provers (sk_registry s) -> v_price p (sk_bank s) (sk_bank s'))).
  { intros a q n t Hq Hal Hi Hs. destruct (ki_provers K s Hinv q Hq) as (Q0 & Q1 & Q2).
    apply stake_for_ok in Hs as (_ & _ & _ & _ & _ & iprove & sh & b1 & b2 & H1 & _ & H2 & _ & _ & _ & -> & _).
    destruct (stake_bank K q n (bk_set_prove t (sk_bank s)) b1 b2 iprove sh HK Q0 Q1 Q2 Hal Ht H1 H2)
      as (_ & _ & Hbal & Hsup & Hshx & _ & _ & Hip & Hvp & _). sk_simpl. split.
    - unfold i_price in *. rewrite Hi.
      exact Hip.
    - intros p Hp. destruct (decide (p = q)) as [->|Hne]; [exact Hvp|].
      apply v_price_same; [unfold v_assets; sk_simpl; rewrite Hbal|change (shares_of (bk_set_stake a (stake_of b2 a + sh) (bk_stsupply b2 + sh) b2) p) with (shares_of b2 p); rewrite Hshx];
        (destruct (N.eqb_spec p q); [congruence|]); rewrite N.add_0_r; reflexivity. }
  assert (Hsame : sk_bank s' = sk_bank s -> i_price K (sk_bank s) (sk_bank s') /\
    (forall p, p ∈ rg_provers (sk_registry s) -> no_slash_of p (KAccepted x c evs s') -> v_price p (sk_bank s) (sk_bank s'))).
  { intros ->. split; [apply price_refl|]. intros. apply price_refl. }
  destruct c; cbn [staking_run] in H.
  - destruct (stake_call_frame K x (KStake p amount) s s' evs Hinv Ho I H) as (a & q & n & t & Hq & Hal & Hi & _ & Hs).
    destruct (Hstake a q n t Hq Hal Hi Hs). auto.
  - destruct (stake_call_frame K x (KPermitAndStake p from amount) s s' evs Hinv Ho I H) as (a & q & n & t & Hq & Hal & Hi & _ & Hs).
    destruct (Hstake a q n t Hq Hal Hi Hs). auto.
  - apply request_unstake_ok in H. cbv zeta in H. set (a := kx_sender x) in *. set (q := bound_to s a) in *.
    destruct H as (_ & Hq & _ & _ & _ & b2 & e & Hv & -> & _).
    destruct (ki_provers K s Hinv q (ki_bound K s Hinv a Hq)) as (Q0 & Q1 & Q2).
    destruct (request_bank K q stprove (bk_set_stake a (stake_of (sk_bank s) a - stprove) (bk_stsupply (sk_bank s) - stprove) (sk_bank s)) b2 e HK Q1 Ht Hv)
      as (_ & Hp & Hbal & _ & Hsup & Hshx & _ & _ & _ & Hvp & _). sk_simpl. split.
    + unfold i_price, i_assets. rewrite Hp, Hsup. sk_simpl. apply price_refl.
    + intros p Hpp _. destruct (decide (p = q)) as [E|Hne]; [rewrite E; exact Hvp|].
      destruct (ki_provers K s Hinv p Hpp) as (P0 & P1 & P2).
      apply v_price_same; [unfold v_assets; rewrite Hbal|rewrite Hshx];
        (destruct (N.eqb_spec p q); [congruence|]); [destruct (N.eqb_spec p (ke_self K)); [congruence|]; now rewrite N.add_0_r|].
      now rewrite N.sub_0_r.
  - apply finish_unstake_ok in H. cbv zeta in H.
    destruct H as (_ & _ & _ & done & left & pool & b & Hrun & _ & _ & _ & ->).
    apply pay_run_ok in Hrun. cbv zeta in Hrun. destruct Hrun as (Hpaid & _ & _ & _ & _).
    match goal with |- context [sk_bank (if ?P then sk_set_bound ?y ?z ?s1 else ?s1)] =>
      replace (sk_bank (if P then sk_set_bound y z s1 else s1)) with b by (destruct P; reflexivity) end.
    split; [apply (po_price K _ _ _ Hpaid Ht)|]. intros p Hp _. destruct (ki_provers K s Hinv p Hp) as (P0 & P1 & P2).
    destruct (po_shares K _ _ _ Hpaid) as (S1 & _). apply v_price_same; [apply (po_other K _ _ _ Hpaid); exact P1|].
    unfold shares_of. now rewrite S1.
  - apply request_slash_ok in H as (_ & _ & _ & _ & -> & _). apply Hsame. reflexivity.
  - apply cancel_slash_ok in H as (c & _ & _ & _ & _ & -> & _). apply Hsame. reflexivity.
  - apply finish_slash_ok in H. cbv zeta in H. destruct H as (c & d & burned & _ & _ & _ & _ & _ & H).
    destruct H as [[_ ->]|(b1 & b2 & f & _ & Hb1 & Hb2 & _ & ->)]; [apply Hsame; reflexivity|]. sk_simpl.
    split.
    + apply (price_trans _ _ (i_assets K b1) (bk_isupply b1)); [apply (bf_price _ _ _ _ _ Hb1 Ht)|].
      apply (bf_price _ _ _ _ _ Hb2). apply (bf_total _ _ _ _ _ Hb1 Ht).
    + cbn [no_slash_of]. intros q Hq Hne. destruct (ki_provers K s Hinv q Hq) as (P0 & P1 & P2).
      destruct (bf_shares _ _ _ _ _ Hb1) as (S1 & _). destruct (bf_shares _ _ _ _ _ Hb2) as (S2 & _).
      apply v_price_same.
      * unfold v_assets. rewrite (bf_other _ _ _ _ _ Hb2) by congruence. now rewrite (bf_other _ _ _ _ _ Hb1) by congruence.
      * unfold shares_of. now rewrite S2, S1.
  - apply dispense_ok in H as (av & t & _ & _ & _ & _ & Htr & -> & _). sk_simpl. split.
    + apply transfer_ok in Htr as (_ & _ & Hb). unfold i_price, i_assets. sk_simpl. rewrite Hb.
      destruct (N.eqb_spec (ke_iprove K) (ke_self K)) as [E|_]; [now destruct (sao_distinct K HK)|].
      apply (price_more _ _ (tk_balance (bk_prove (sk_bank s)) (ke_iprove K))); [apply price_refl|lia].
    + intros p _ _. apply price_refl.
  - unfold k_set_dispenser in H. sk_inv. subst. apply Hsame. reflexivity.
  - unfold k_update_rate in H. sk_inv. subst. apply Hsame. reflexivity.
  - apply create_prover_ok in H as (d & n & _ & _ & ->). apply Hsame. reflexivity.
  - apply reward_ok in H as (Hp & _ & b & sh & H & ->).
    destruct (reward_bank K p amount _ b sh HK (ki_allow K s Hinv) H) as (_ & _ & R3 & R4 & (R5 & _ & _) & R8).
    sk_simpl. split; [exact R8|]. intros q _ _. unfold v_price, shares_of. rewrite R5.
    apply (price_more _ _ (v_assets q (sk_bank s))); [apply price_refl|]. unfold v_assets. rewrite R3. lia.
  - unfold k_transfer_ownership in H. sk_inv. subst. apply Hsame. reflexivity.
  - unfold k_renounce_ownership in H. sk_inv. subst. apply Hsame. reflexivity.
Qed.

(** ** Stakes *)

Lemma stake_step K x c s s' evs a :
  stk_inv K s -> by_outsider K (KAccepted x c evs s') -> staking_run K x c s = Ok (s', evs) ->
  no_request_by a (KAccepted x c evs s') -> stake_of (sk_bank s) a <> 0 ->
  bound_to s' a = bound_to s a /\ stake_of (sk_bank s) a <= stake_of (sk_bank s') a.
Proof.
  intros Hinv Ho H Hn Hst.
  assert (Hb0 : bound_to s a <> 0) by (intros E; destruct (ki_unbound K s Hinv a E); congruence).
  assert (Hstake : forall y q n t, q ∈ rg_provers (sk_registry s) -> allow_ok K t ->
    stake_for K y q n (sk_set_bank (bk_set_prove t (sk_bank s)) s) = Ok (s', evs) ->
    bound_to s' a = bound_to s a /\ stake_of (sk_bank s) a <= stake_of (sk_bank s') a).
  { intros y q n t Hq Hal Hs. pose proof (ki_addresses K s Hinv) as HK. destruct (ki_provers K s Hinv q Hq) as (Q0 & Q1 & Q2).
    pose proof (stake_frame _ _ _ _ _ _ _ Hs) as (_ & _ & _ & Hbx & Hby & _). split.
    - rewrite Hbx. destruct (N.eqb_spec a y) as [->|]; [|reflexivity].
      change (bound_to s y = 0 \/ bound_to s y = q) in Hby. destruct Hby; congruence.
    - apply stake_for_ok in Hs as (_ & _ & _ & _ & _ & iprove & sh & b1 & b2 & H1 & _ & H2 & _ & _ & _ & -> & _).
      destruct (stake_bank K q n (bk_set_prove t (sk_bank s)) b1 b2 iprove sh HK Q0 Q1 Q2 Hal (ki_total K s Hinv) H1 H2)
        as (_ & _ & _ & _ & _ & Hstk & _). sk_simpl.
      rewrite (stake_set b2 (bk_set_stake y (stake_of b2 y + sh) (bk_stsupply b2 + sh) b2) y (stake_of b2 y + sh) a) by reflexivity.
      unfold stake_of. rewrite Hstk. sk_simpl. destruct (N.eqb_spec a y) as [->|]; lia. }
  destruct c;
    try (match type of H with staking_run _ _ ?c _ = _ => destruct (quiet_ok K x c s s' evs I H) as (_ & _ & Q1 & Q2 & _) end;
         unfold bound_to, stake_of; rewrite Q1, Q2; split; [reflexivity|lia]).
  - destruct (stake_call_frame K x (KStake p amount) s s' evs Hinv Ho I H) as (y & q & n & t & Hq & Hal & _ & _ & Hs).
    exact (Hstake y q n t Hq Hal Hs).
  - destruct (stake_call_frame K x (KPermitAndStake p from amount) s s' evs Hinv Ho I H) as (y & q & n & t & Hq & Hal & _ & _ & Hs).
    exact (Hstake y q n t Hq Hal Hs).
  - cbn [no_request_by] in Hn. apply request_unstake_ok in H. cbv zeta in H. set (y := kx_sender x) in *. set (q := bound_to s y) in *.
    destruct H as (_ & Hq & _ & _ & _ & b2 & e & Hv & -> & _). split; [reflexivity|].
    apply v_redeem_ok in Hv as (_ & _ & _ & _ & _ & _ & Hstk & _ & _). sk_simpl.
    unfold stake_of. rewrite Hstk. sk_simpl. rewrite lookup_insert_ne by congruence. lia.
  - apply finish_unstake_ok in H. cbv zeta in H.
    destruct H as (_ & _ & _ & done & left & pool & b & Hrun & _ & _ & _ & ->).
    apply pay_run_ok in Hrun. cbv zeta in Hrun. destruct Hrun as (Hpaid & _ & _ & _ & _).
    destruct (po_shares K _ _ _ Hpaid) as (_ & S2 & _).
    assert (Hsb : forall y, stake_of b y = stake_of (sk_bank s) y) by (intros y; unfold stake_of; now rewrite S2).
    rewrite !Hsb. destruct ((stake_of (sk_bank s) staker =? 0) && (length left =? 0)%nat) eqn:Hz.
    + rewrite bound_set. apply andb_true_iff in Hz as [Hz _]. apply N.eqb_eq in Hz.
      destruct (N.eqb_spec a staker) as [E|]; [rewrite E in Hst; congruence|].
      split; [reflexivity|]. sk_simpl. rewrite Hsb. lia.
    + split; [reflexivity|]. sk_simpl. rewrite Hsb. lia.
  - apply finish_slash_ok in H. cbv zeta in H. destruct H as (c & d & burned & _ & _ & _ & _ & _ & H).
    destruct H as [[_ ->]|(b1 & b2 & f & _ & Hb1 & Hb2 & _ & ->)]; (split; [reflexivity|]); sk_simpl; [lia|].
    destruct (bf_shares _ _ _ _ _ Hb1) as (_ & S1 & _). destruct (bf_shares _ _ _ _ _ Hb2) as (_ & S2 & _).
    unfold stake_of. rewrite S2, S1. lia.
Qed.

(** Provers stay provers. *)
Lemma provers_step K x c s s' evs :
  stk_inv K s -> by_outsider K (KAccepted x c evs s') -> staking_run K x c s = Ok (s', evs) ->
  rg_provers (sk_registry s) ⊆ rg_provers (sk_registry s').
Proof.
  intros Hinv Ho H. destruct c; cbn [staking_run] in H.
  - destruct (stake_call_frame K x (KStake p amount) s s' evs Hinv Ho I H) as (y & q & n & t & _ & _ & _ & _ & Hs).
    apply stake_for_ok in Hs as (_ & _ & _ & _ & _ & ? & ? & ? & ? & _ & _ & _ & _ & _ & _ & -> & _).
    sk_simpl. now destruct (_ =? 0).
  - destruct (stake_call_frame K x (KPermitAndStake p from amount) s s' evs Hinv Ho I H) as (y & q & n & t & _ & _ & _ & _ & Hs).
    apply stake_for_ok in Hs as (_ & _ & _ & _ & _ & ? & ? & ? & ? & _ & _ & _ & _ & _ & _ & -> & _).
    sk_simpl. now destruct (_ =? 0).
  - apply request_unstake_ok in H. cbv zeta in H. destruct H as (_ & _ & _ & _ & _ & b2 & e & _ & -> & _). reflexivity.
  - apply finish_unstake_ok in H. cbv zeta in H.
    destruct H as (_ & _ & _ & done & left & pool & b & _ & _ & _ & _ & ->). now destruct (_ && (length left =? 0)%nat).
  - apply request_slash_ok in H as (_ & _ & _ & _ & -> & _). reflexivity.
  - apply cancel_slash_ok in H as (c & _ & _ & _ & _ & -> & _). reflexivity.
  - apply finish_slash_ok in H. cbv zeta in H. destruct H as (c & d & burned & _ & _ & _ & _ & _ & H).
    destruct H as [[_ ->]|(b1 & b2 & f & _ & _ & _ & _ & ->)]; reflexivity.
  - apply dispense_ok in H as (av & t & _ & _ & _ & _ & _ & -> & _). reflexivity.
  - unfold k_set_dispenser in H. sk_inv. now subst.
  - unfold k_update_rate in H. sk_inv. now subst.
  - apply create_prover_ok in H as (d & n & _ & _ & ->). sk_simpl. apply union_subseteq_r.
  - apply reward_ok in H as (_ & _ & b & sh & _ & ->). reflexivity.
  - unfold k_transfer_ownership in H. sk_inv. now subst.
  - unfold k_renounce_ownership in H. sk_inv. now subst.
Qed.

Lemma value_history K s log s' a :
  stk_history K s log s' -> stk_inv K s -> Forall (by_outsider K) log -> Forall (no_request_by a) log ->
  stake_of (sk_bank s) a <> 0 -> Forall (no_slash_of (bound_to s a)) log ->
  bound_to s' a = bound_to s a /\ stake_of (sk_bank s) a <= stake_of (sk_bank s') a /\
  i_price K (sk_bank s) (sk_bank s') /\ v_price (bound_to s a) (sk_bank s) (sk_bank s').
Proof.
  induction 1 as [s|s x c s1 evs log s' Hr _ IH|s x c e log s' Hr _ IH|s o t log s' Hr _ IH]; intros Hinv Ho Hn Hst Hsl.
  - split; [reflexivity|]. split; [lia|]. split; apply price_refl.
  - apply Forall_cons in Ho as [Ho1 Ho2]. apply Forall_cons in Hn as [Hn1 Hn2]. apply Forall_cons in Hsl as [Hsl1 Hsl2].
    destruct (stake_step K x c s s1 evs a Hinv Ho1 Hr Hn1 Hst) as [Hb Hle].
    destruct (price_step K x c s s1 evs Hinv Ho1 Hr) as [Hip Hvp].
    rewrite <- Hb in Hsl2.
    destruct (IH (inv_call K x c s s1 evs Hinv Ho1 Hr) Ho2 Hn2 ltac:(lia) Hsl2) as (I1 & I2 & I3 & I4).
    assert (Hb0 : bound_to s a <> 0) by (intros E; destruct (ki_unbound K s Hinv a E); congruence).
    split; [congruence|]. split; [lia|]. split; [exact (price_trans _ _ _ _ _ _ Hip I3)|].
    rewrite Hb in I4. exact (price_trans _ _ _ _ _ _ (Hvp _ (ki_bound K s Hinv a Hb0) Hsl1) I4).
  - apply Forall_cons in Ho as [_ Ho2]. apply Forall_cons in Hn as [_ Hn2]. apply Forall_cons in Hsl as [_ Hsl2].
    exact (IH Hinv Ho2 Hn2 Hst Hsl2).
  - apply Forall_cons in Ho as [Ho1 Ho2]. apply Forall_cons in Hn as [_ Hn2]. apply Forall_cons in Hsl as [_ Hsl2].
    destruct (token_op_inv K s o t Hinv Ho1 Hr) as [Hal Hi].
    destruct (IH (inv_prove K s t Hinv Hal) Ho2 Hn2 Hst Hsl2) as (I1 & I2 & I3 & I4).
    split; [exact I1|]. split; [exact I2|]. split; [|exact I4].
    refine (price_trans _ _ _ _ _ _ _ I3). unfold i_assets at 2. sk_simpl.
    apply (price_more _ _ (i_assets K (sk_bank s))); [apply price_refl|exact Hi].
Qed.

Lemma staked_mono K s log s' a v v' :
  stk_history K s log s' -> stk_inv K s -> Forall (by_outsider K) log -> Forall (no_request_by a) log ->
  Forall (no_slash_of (bound_to s a)) log -> staked K a s = Ok v -> staked K a s' = Ok v' -> v <= v'.
Proof.
  intros Hh Hinv Ho Hn Hsl Hv Hv'. unfold staked, preview_unstake, v_preview_redeem, i_preview_redeem in *.
  destruct (N.eqb_spec (bound_to s a) 0) as [E|E]; [injection Hv as <-; lia|].
  destruct (N.eq_dec (stake_of (sk_bank s) a) 0) as [E0|E0].
  { rewrite E0 in Hv. sk_inv. subst. cbn. lia. }
  destruct (value_history K s log s' a Hh Hinv Ho Hn E0 Hsl) as (I1 & I2 & I3 & I4).
  rewrite I1 in Hv'. destruct (N.eqb_spec (bound_to s a) 0); [congruence|]. sk_inv. subst.
  apply preview_mono; [exact I3|]. apply preview_mono; [exact I4|exact I2].
Qed.
