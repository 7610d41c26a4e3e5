(** What finishing an unstake and finishing a slash change, exactly. *)
From Verif Require Export StakingLive.
From Coq Require Import Lia ZifyBool ZifyN ZifyNat.
Open Scope N_scope.

Lemma pay_run_prove K a p done pool b evs pool' b' :
  pay_run K a p done pool b evs pool' b' -> a <> ke_iprove K ->
  tk_balance (bk_prove b') a = tk_balance (bk_prove b) a + list_total ev_prove evs /\
  i_assets K b' + list_total ev_prove evs = i_assets K b /\
  (forall y, y <> a -> y <> ke_iprove K -> tk_balance (bk_prove b') y = tk_balance (bk_prove b) y).
Proof.
  intros H Ha. induction H as [pool b|c rest pool b pool1 b1 prove ev evs pool' b' Hf _ (I1 & I2 & I3)].
  - totals. split; [lia|]. split; [lia|auto].
  - apply finish_request_ok in Hf as (_ & -> & _ & _ & Hb). totals. cbn [ev_prove].
    assert (H1 : tk_balance (bk_prove b1) a = tk_balance (bk_prove b) a + prove /\ i_assets K b1 + prove = i_assets K b /\
      (forall y, y <> a -> y <> ke_iprove K -> tk_balance (bk_prove b1) y = tk_balance (bk_prove b) y)).
    { destruct Hb as [(_ & -> & ->)|Hb]; [split; [lia|split; [lia|auto]]|].
      apply i_redeem_ok in Hb as (Htr & _). apply transfer_ok in Htr as (_ & Hle & Hbal). unfold i_assets in *.
      split; [|split].
      - rewrite Hbal, N.eqb_refl. destruct (N.eqb_spec a (ke_iprove K)); [congruence|]. lia.
      - rewrite Hbal, N.eqb_refl. destruct (N.eqb_spec (ke_iprove K) a); [congruence|]. lia.
      - intros y H1 H2. rewrite Hbal. destruct (N.eqb_spec y (ke_iprove K)); [congruence|]. destruct (N.eqb_spec y a); [congruence|]. lia. }
    destruct H1 as (J1 & J2 & J3). split; [lia|]. split; [lia|]. intros y H1 H2. rewrite I3, J3 by assumption. reflexivity.
Qed.

Lemma finish_exact K x a s s' evs :
  stk_inv K s -> a <> ke_iprove K -> k_finish_unstake K x a s = Ok (s', evs) ->
  exists done,
    Permutation (claims_of s a) (done ++ claims_of s' a) /\
    Forall (matured K (kx_time x)) done /\ Forall (fun c => ~ matured K (kx_time x) c) (claims_of s' a) /\
    Forall2 (fun c ev => exists prove i, ev = EvUnstake a (bound_to s a) prove i /\
                           i <= claim_value (ep_factor (pool_of s (bound_to s a))) c) done evs /\
    tk_balance (bk_prove (sk_bank s')) a = tk_balance (bk_prove (sk_bank s)) a + list_total ev_prove evs /\
    i_assets K (sk_bank s') + list_total ev_prove evs = i_assets K (sk_bank s) /\
    (forall b, b <> a -> claims_of s' b = claims_of s b /\ bound_to s' b = bound_to s b) /\
    (forall q, q <> bound_to s a -> pool_of s' q = pool_of s q) /\
    (forall b, stake_of (sk_bank s') b = stake_of (sk_bank s) b).
Proof.
  intros Hinv Ha H. apply finish_unstake_ok in H. cbv zeta in H. set (p := bound_to s a) in *.
  destruct H as (_ & _ & _ & done & left & pool & b & Hrun & Hd & Hl & Hperm & ->).
  pose proof (pay_run_prove K a p done _ _ evs pool b Hrun Ha) as (P1 & P2 & _).
  apply pay_run_ok in Hrun. cbv zeta in Hrun. destruct Hrun as (Hpaid & _ & _ & _ & Hev).
  set (pool' := if (ep_escrow pool =? 0) && negb (ep_factor pool =? slash_scalar)
                then EscrowPool (ep_escrow pool) slash_scalar else pool).
  set (s1 := sk_set_claims a left (sk_set_pool p pool' (sk_set_bank b s))).
  set (z := (stake_of b a =? 0) && (length left =? 0)%nat).
  exists done.
  assert (Hc : forall y, claims_of (if z then sk_set_bound a 0 s1 else s1) y = if y =? a then left else claims_of s y).
  { intros y. replace (claims_of (if z then sk_set_bound a 0 s1 else s1) y) with (claims_of s1 y) by (destruct z; reflexivity).
    unfold s1. rewrite claims_set. reflexivity. }
  assert (Hbk : sk_bank (if z then sk_set_bound a 0 s1 else s1) = b) by (now destruct z).
  rewrite Hbk, (Hc a), N.eqb_refl.
  split; [exact Hperm|]. split; [exact Hd|]. split; [exact Hl|]. split; [exact Hev|]. split; [exact P1|]. split; [exact P2|].
  split; [|split].
  - intros y Hy. rewrite Hc. destruct (N.eqb_spec y a); [congruence|]. split; [reflexivity|].
    destruct z; [|reflexivity]. rewrite bound_set. destruct (N.eqb_spec y a); [congruence|reflexivity].
  - intros q Hq. replace (pool_of (if z then sk_set_bound a 0 s1 else s1) q) with (pool_of s1 q) by (now destruct z).
    unfold s1. rewrite pool_claims, pool_set. destruct (N.eqb_spec q p); [congruence|reflexivity].
  - intros y. destruct (po_shares K _ _ _ Hpaid) as (_ & S2 & _). unfold stake_of. now rewrite S2.
Qed.

Lemma slash_prove K o n b b' prove : slash_if_nonzero K o n b = Ok (b', prove) ->
  i_assets K b' + prove = i_assets K b /\
  (forall y, y <> ke_iprove K -> tk_balance (bk_prove b') y = tk_balance (bk_prove b) y).
Proof.
  unfold slash_if_nonzero. destruct (n =? 0); intros H; [sk_inv; subst; split; [lia|auto]|].
  apply i_slash_ok in H as (Hb & _). apply burn_ok in Hb as (_ & Hle & Hbal). unfold i_assets. split.
  - rewrite Hbal, N.eqb_refl. lia.
  - intros y Hy. rewrite Hbal. destruct (N.eqb_spec y (ke_iprove K)); [congruence|reflexivity].
Qed.

Lemma finish_slash_prove K x p i s s' burned amount :
  k_finish_slash K x p i s = Ok (s', [EvSlash p burned amount i]) ->
  i_assets K (sk_bank s') + burned = i_assets K (sk_bank s) /\
  (forall y, y <> ke_iprove K -> tk_balance (bk_prove (sk_bank s')) y = tk_balance (bk_prove (sk_bank s)) y).
Proof.
  unfold k_finish_slash. cbv zeta. intros H. sk_inv.
  match goal with H : deactivate_if_below_min _ _ = Ok _ |- _ => apply deactivate_ok in H as (d & ->) end.
  match goal with H : (if ?b then _ else _) = Ok _ |- _ => destruct b end; sk_inv; subst.
  - match goal with H : [_] = [_] |- _ => injection H as <- <- end. sk_simpl. split; [lia|auto].
  - match goal with H : [_] = [_] |- _ => injection H as <- <- end. sk_simpl.
    repeat match goal with H : slash_if_nonzero _ _ _ _ = Ok _ |- _ => apply slash_prove in H as [? ?] end.
    split; [lia|]. intros y Hy. match goal with H : forall y, _ -> tk_balance (bk_prove ?b) y = _ |- tk_balance (bk_prove ?b) _ = _ => rewrite (H y Hy) end. auto.
Qed.

Lemma slash_exact K x p i s s' evs :
  stk_inv K s -> k_finish_slash K x p i s = Ok (s', evs) ->
  let total := v_assets p (sk_bank s) + ep_escrow (pool_of s p) in
  exists c burned, slashes_of s p !! N.to_nat i = Some c /\ sc_resolved c = false /\ kx_sender x = sk_owner s /\
    let amount := N.min (sc_amount c) total in
    evs = [EvSlash p burned amount i] /\
    ep_escrow (pool_of s' p) = ep_escrow (pool_of s p) - amount * ep_escrow (pool_of s p) / total /\
    v_assets p (sk_bank s') + ep_escrow (pool_of s' p) + amount = total /\
    bk_isupply (sk_bank s') + amount = bk_isupply (sk_bank s) /\
    i_assets K (sk_bank s') + burned = i_assets K (sk_bank s) /\
    (forall q, q <> p -> q ∈ rg_provers (sk_registry s) ->
       v_assets q (sk_bank s') = v_assets q (sk_bank s) /\ pool_of s' q = pool_of s q) /\
    (forall a, stake_of (sk_bank s') a = stake_of (sk_bank s) a /\ claims_of s' a = claims_of s a).
Proof.
  intros Hinv H. pose proof H as H'. cbv zeta. apply finish_slash_ok in H. cbv zeta in H.
  destruct H as (c & d & burned & Hc & Hr & Hx & Hp & -> & H). apply finish_slash_prove in H' as [Hpr _].
  destruct (ki_provers K s Hinv p Hp) as (Hp0 & Hps & Hpi).
  set (total := v_assets p (sk_bank s) + ep_escrow (pool_of s p)) in *. set (amount := N.min (sc_amount c) total) in *.
  exists c, burned. fold amount. split; [exact Hc|]. split; [exact Hr|]. split; [exact Hx|]. split; [reflexivity|].
  destruct H as [[Ha ->]|(b1 & b2 & f & Ha & Hb1 & Hb2 & Hf & ->)].
  - match goal with |- context [pool_of (sk_set_registry ?r ?s3) p] =>
      change (pool_of (sk_set_registry r s3) p) with (pool_of s p) end. sk_simpl.
    rewrite Ha. rewrite N.mul_0_l. split; [destruct (N.eq_dec total 0) as [E|E]; [rewrite E; cbn; lia|rewrite N.div_0_l by exact E; lia]|].
    split; [unfold total; lia|]. split; [lia|]. split; [exact Hpr|]. split; [auto|]. auto.
  - set (fe := amount * ep_escrow (pool_of s p) / total) in *.
    destruct (slash_split amount (ep_escrow (pool_of s p)) (v_assets p (sk_bank s)) ltac:(lia) ltac:(lia)) as [_ Hfa].
    fold total in Hfa. fold fe in Hfa.
    assert (Hfe : fe <= ep_escrow (pool_of s p)) by (apply from_escrow_le; lia).
    match goal with |- context [pool_of ?s2 p] => set (s2' := s2) in * end.
    assert (Hpo : forall q, pool_of s2' q = if q =? p then EscrowPool (ep_escrow (pool_of s p) - fe) f else pool_of s q).
    { intros q. unfold s2'. match goal with |- pool_of (sk_set_registry ?r ?s3) q = ?z => change (pool_of s3 q = z) end.
      rewrite pool_set. destruct (q =? p); reflexivity. }
    rewrite Hpo, N.eqb_refl. change (sk_bank s2') with b2 in *. sk_simpl.
    pose proof (bf_owner _ _ _ _ _ Hb1) as O1. pose proof (bf_owner _ _ _ _ _ Hb2) as O2.
    rewrite (bf_other _ _ _ _ _ Hb1) in O2 by congruence.
    pose proof (bf_supply _ _ _ _ _ Hb1 (ki_total K s Hinv)) as S1.
    pose proof (bf_supply _ _ _ _ _ Hb2 (bf_total _ _ _ _ _ Hb1 (ki_total K s Hinv))) as S2.
    split; [reflexivity|]. split; [unfold total, v_assets in *; lia|]. split; [lia|]. split; [exact Hpr|]. split.
    + intros q Hq Hqp. destruct (ki_provers K s Hinv q Hqp) as (_ & Hqs & _). split.
      * unfold v_assets. rewrite (bf_other _ _ _ _ _ Hb2) by congruence. apply (bf_other _ _ _ _ _ Hb1). congruence.
      * rewrite Hpo. destruct (N.eqb_spec q p); [congruence|reflexivity].
    + intros a. split; [|reflexivity]. destruct (bf_shares _ _ _ _ _ Hb1) as (_ & T1 & _). destruct (bf_shares _ _ _ _ _ Hb2) as (_ & T2 & _).
      unfold stake_of. now rewrite T2, T1.
Qed.

(** Each claim is paid in full, in $PROVE at no worse a rate than before. *)
Lemma pay_run_rate K a p done pool b evs pool' b' :
  pay_run K a p done pool b evs pool' b' -> i_total_ok b ->
  Forall (fun ev => ev_iprove ev * (i_assets K b + 1) / (bk_isupply b + 1) <= ev_prove ev) evs.
Proof.
  induction 1 as [pool b|c rest pool b pool1 b1 prove ev evs pool' b' Hf Hrun IH]; intros Ht; [constructor|].
  pose proof (pr_cons K a p c [] pool b pool1 b1 prove ev [] pool1 b1 Hf (pr_nil K a p pool1 b1)) as Hone.
  apply pay_run_ok in Hone. cbv zeta in Hone. destruct Hone as (Hpaid & _).
  pose proof (po_price K _ _ _ Hpaid Ht) as Hpr. pose proof (po_total K _ _ _ Hpaid Ht) as Ht1.
  apply finish_request_ok in Hf as (_ & -> & _ & _ & Hb). constructor.
  - cbn [ev_iprove ev_prove]. destruct Hb as [(-> & _ & ->)|Hb].
    + rewrite N.mul_0_l, N.div_0_l by lia. lia.
    + unfold i_redeem in Hb. sk_inv. unfold i_preview_redeem in *. sk_inv. subst. lia.
  - eapply Forall_impl; [exact (IH Ht1)|]. intros ev H. cbv beta in *. etransitivity; [|exact H]. apply preview_mono; [exact Hpr|lia].
Qed.

Lemma finish_backed_exact K L x a s s' evs :
  multiple_ok L -> stk_inv K s -> backed L (bound_to s a) s -> k_finish_unstake K x a s = Ok (s', evs) ->
  exists done,
    Permutation (claims_of s a) (done ++ claims_of s' a) /\
    Forall (matured K (kx_time x)) done /\ Forall (fun c => ~ matured K (kx_time x) c) (claims_of s' a) /\
    Forall2 (fun (c : unstake_claim) ev => exists prove, ev = EvUnstake a (bound_to s a) prove (claim_value (ep_factor (pool_of s (bound_to s a))) c) /\
               iprove_worth K s (claim_value (ep_factor (pool_of s (bound_to s a))) c) <= prove) done evs.
Proof.
  intros HL Hinv [Hb _ _] H. apply finish_unstake_ok in H. cbv zeta in *. set (p := bound_to s a) in *.
  destruct H as (_ & _ & _ & done & left & pool & b & Hrun & Hd & Hl & Hperm & ->).
  set (pool' := if (ep_escrow pool =? 0) && negb (ep_factor pool =? slash_scalar)
                then EscrowPool (ep_escrow pool) slash_scalar else pool).
  set (s1 := sk_set_claims a left (sk_set_pool p pool' (sk_set_bank b s))).
  set (z := (stake_of b a =? 0) && (length left =? 0)%nat).
  assert (Hc : claims_of (if z then sk_set_bound a 0 s1 else s1) a = left).
  { replace (claims_of (if z then sk_set_bound a 0 s1 else s1) a) with (claims_of s1 a) by (destruct z; reflexivity).
    unfold s1. rewrite claims_set, N.eqb_refl. reflexivity. }
  exists done. rewrite Hc. split; [exact Hperm|]. split; [exact Hd|]. split; [exact Hl|].
  pose proof (pay_run_rate K a p done _ _ evs pool b Hrun (ki_total K s Hinv)) as Hrate.
  destruct (pay_run_backed K L a p done (pool_of s p) (sk_bank s) evs pool b Hrun HL) with (R := 0) as [_ Hev].
  { intros c Hin. assert (Hc' : c ∈ claims_of s a) by (rewrite Hperm; apply elem_of_app; auto).
    destruct (ki_claims K s Hinv a c Hc') as [[? ?] _]. auto. }
  { rewrite N.add_0_r. etransitivity; [|exact Hb]. apply N.mul_le_mono_l.
    etransitivity; [|exact (claim_sum_ge (weight L) (sk_bound s) (sk_claims s) a)]. fold (claims_of s a).
    rewrite (list_total_perm _ _ _ Hperm), list_total_app. lia. }
  clear - Hrate Hev. induction Hev as [|c ev done evs (prove & ->) _ IH]; [constructor|].
  apply Forall_cons in Hrate as [Hr1 Hr2]. constructor; [|exact (IH Hr2)]. exists prove. split; [reflexivity|].
  exact Hr1.
Qed.

(** ** Staking *)

Lemma round_trip A S n : let sh := n * (S + 1) / (A + 1) in forall m, m <= sh -> m * (A + n + 1) / (S + sh + 1) <= n.
Proof.
  intros sh m Hm. pose proof (div_le_mul (n * (S + 1)) (A + 1) ltac:(lia)) as Hq. fold sh in Hq. clearbody sh.
  transitivity (sh * (A + n + 1) / (S + sh + 1)); [apply N.div_le_mono; [lia|nia]|].
  apply N.div_le_upper_bound; [lia|]. nia.
Qed.

Lemma round_trip2 A S a s n m sh :
  m = n * (S + 1) / (A + 1) -> sh = m * (s + 1) / (a + 1) ->
  sh * (a + m + 1) / (s + sh + 1) * (A + n + 1) / (S + m + 1) <= n.
Proof.
  intros Hm Hsh. pose proof (round_trip a s m sh) as H1. cbv zeta in H1. rewrite <- Hsh in H1.
  pose proof (round_trip A S n (sh * (a + m + 1) / (s + sh + 1))) as H2. cbv zeta in H2. rewrite <- Hm in H2.
  apply H2, H1, N.le_refl.
Qed.

Lemma preview_unstake_eq K p n b v : preview_unstake K p n b = Ok v ->
  v = n * (v_assets p b + 1) / (shares_of b p + 1) * (i_assets K b + 1) / (bk_isupply b + 1).
Proof. unfold preview_unstake, v_preview_redeem, i_preview_redeem. intros H. sk_inv. subst. reflexivity. Qed.

Lemma stake_exact K x c s s' evs a p n :
  stk_inv K s -> by_outsider K (KAccepted x c evs s') ->
  (c = KStake p n /\ a = kx_sender x \/ c = KPermitAndStake p a n) ->
  staking_run K x c s = Ok (s', evs) ->
  exists iprove sh, evs = [EvStake a p n iprove sh] /\ iprove <> 0 /\ sh <> 0 /\ ke_min_stake K <= n /\
    iprove = issued n (i_assets K (sk_bank s)) (bk_isupply (sk_bank s)) /\
    sh = issued iprove (v_assets p (sk_bank s)) (shares_of (sk_bank s) p) /\
    p ∈ rg_provers (sk_registry s) /\ p ∉ rg_deactivated (sk_registry s) /\
    tk_balance (bk_prove (sk_bank s')) a + n = tk_balance (bk_prove (sk_bank s)) a /\
    i_assets K (sk_bank s') = i_assets K (sk_bank s) + n /\
    (forall y, y <> a -> y <> ke_iprove K -> tk_balance (bk_prove (sk_bank s')) y = tk_balance (bk_prove (sk_bank s)) y) /\
    (forall y, stake_of (sk_bank s') y = stake_of (sk_bank s) y + if y =? a then sh else 0) /\
    bound_to s' a = p /\ (bound_to s a = 0 \/ bound_to s a = p) /\
    redeemed (redeemed sh (v_assets p (sk_bank s')) (shares_of (sk_bank s') p)) (i_assets K (sk_bank s')) (bk_isupply (sk_bank s')) <= n.
Proof.
  intros Hinv Ho Hc H. pose proof (sao_distinct K (ki_addresses K s Hinv)) as Hd.
  assert (Ha : outside K a) by (destruct Ho as [Ho1 Ho2]; destruct Hc as [[-> ->]| ->]; auto).
  destruct Ha as [Ha1 Ha2].
  assert (Ht : exists t, p ∈ rg_provers (sk_registry s) /\
    (forall y, tk_balance t y = (if y =? a then tk_balance (bk_prove (sk_bank s)) y - n else tk_balance (bk_prove (sk_bank s)) y)
       + if y =? ke_self K then n else 0) /\ n <= tk_balance (bk_prove (sk_bank s)) a /\
    stake_for K a p n (sk_set_bank (bk_set_prove t (sk_bank s)) s) = Ok (s', evs)).
  { destruct Hc as [[-> ->]| ->]; cbn [staking_run] in H.
    - apply stake_call_ok in H as (t & Hp & Ht & H). exists t. split; [exact Hp|].
      apply transfer_from_ok in Ht as (H1 & _ & _ & _ & H2). auto.
    - apply permit_stake_ok in H as (t1 & t & Hp & Ht1 & Ht & H). exists t. split; [exact Hp|].
      apply transfer_from_ok in Ht as (H1 & _ & _ & _ & H2).
      assert (E : forall y, tk_balance t1 y = tk_balance (bk_prove (sk_bank s)) y) by (destruct Ht1 as [-> | ->]; reflexivity).
      rewrite E in H1. split; [|auto]. intros y. rewrite H2, E. reflexivity. }
  destruct Ht as (t & Hp & Hbal & Hle & Hs). destruct (ki_provers K s Hinv p Hp) as (Hp0 & Hps & Hpi).
  apply stake_for_ok in Hs as (Hn & Hmin & Hact & _ & Hbound & iprove & sh & b1 & b2 & Hd1 & Hi & Hd2 & Hsh & _ & _ & -> & ->).
  unfold is_deactivated in Hact. apply bool_decide_eq_false in Hact.
  change (bound_to (sk_set_bank (bk_set_prove t (sk_bank s)) s) a) with (bound_to s a) in *.
  change (rg_deactivated (sk_registry (sk_set_bank (bk_set_prove t (sk_bank s)) s))) with (rg_deactivated (sk_registry s)) in Hact.
  sk_simpl.
  apply i_deposit_ok in Hd1 as (t1 & Ht1 & Hb1 & _ & Hish & Hisup & Hibal & _ & Hsame). sk_simpl.
  apply v_deposit_ok in Hd2 as (Htr & Hvsh & Hvs & Hb2 & Hvsup & Hst & _ & _).
  apply transfer_from_ok in Ht1 as (Hle1 & _ & _ & _ & Hbal1). apply transfer_ok in Htr as (_ & _ & Htr).
  assert (Hprove : forall y, tk_balance (bk_prove b2) y =
    (if y =? a then tk_balance (bk_prove (sk_bank s)) y - n else tk_balance (bk_prove (sk_bank s)) y) + if y =? ke_iprove K then n else 0).
  { intros y. rewrite Hb2, Hb1, Hbal1. rewrite Hbal. destruct (N.eqb_spec y (ke_self K)) as [->|].
    - destruct (N.eqb_spec (ke_self K) a); [congruence|]. clear. lia.
    - clear. lia. }
  assert (Hia : i_assets K b2 = i_assets K (sk_bank s) + n).
  { unfold i_assets. rewrite Hprove, N.eqb_refl. destruct (N.eqb_spec (ke_iprove K) a); [congruence|]. reflexivity. }
  assert (Hset : exists s0, (if bound_to s a =? 0 then sk_set_bound a p (sk_set_bank (bk_set_prove t (sk_bank s)) s)
       else sk_set_bank (bk_set_prove t (sk_bank s)) s) = s0 /\ bound_to s0 a = p).
  { eexists. split; [reflexivity|]. destruct (N.eqb_spec (bound_to s a) 0) as [E|E].
    - rewrite bound_set, N.eqb_refl. reflexivity.
    - destruct Hbound as [?|?]; [congruence|assumption]. }
  destruct Hset as (s0 & Es0 & Hb0). rewrite Es0.
  exists iprove, sh. split; [reflexivity|]. split; [exact Hi|]. split; [exact Hsh|]. split; [exact Hmin|].
  assert (Hti : i_assets K (bk_set_prove t (sk_bank s)) = i_assets K (sk_bank s)).
  { unfold i_assets. cbn [bk_set_prove bk_prove]. rewrite Hbal. destruct (N.eqb_spec (ke_iprove K) a); [congruence|].
    destruct (N.eqb_spec (ke_iprove K) (ke_self K)); [congruence|]. apply N.add_0_r. }
  rewrite Hti in Hish. split; [exact Hish|]. split.
  { rewrite Hvsh. unfold issued, v_assets. rewrite Hibal. destruct (N.eqb_spec p (ke_self K)); [congruence|].
    rewrite N.add_0_r. unfold shares_of. destruct Hsame as (-> & _). reflexivity. }
  split; [exact Hp|]. split; [exact Hact|]. split; [|split; [|split; [|split; [|split; [|split]]]]].
  - rewrite Hprove, N.eqb_refl. destruct (N.eqb_spec a (ke_iprove K)); [congruence|]. lia.
  - exact Hia.
  - intros y H1 H2. rewrite Hprove. destruct (N.eqb_spec y a); [congruence|]. destruct (N.eqb_spec y (ke_iprove K)); [congruence|]. lia.
  - intros y. unfold stake_of at 1. cbn [bk_stakes]. destruct Hsame as (_ & Hst1 & _). sk_simpl.
    assert (E : bk_stakes b2 = bk_stakes (sk_bank s)) by (rewrite Hst; exact Hst1).
    destruct (N.eqb_spec y a) as [->|Hy].
    + rewrite lookup_insert. unfold stake_of. rewrite E. reflexivity.
    + rewrite lookup_insert_ne by congruence. rewrite E. symmetry. apply N.add_0_r.
  - exact Hb0.
  - exact Hbound.
  - unfold redeemed.
    change (v_assets p (bk_set_stake a (stake_of b2 a + sh) (bk_stsupply b2 + sh) b2)) with (v_assets p b2).
    change (shares_of (bk_set_stake a (stake_of b2 a + sh) (bk_stsupply b2 + sh) b2) p) with (shares_of b2 p).
    change (i_assets K (bk_set_stake a (stake_of b2 a + sh) (bk_stsupply b2 + sh) b2)) with (i_assets K b2).
    change (bk_isupply (bk_set_stake a (stake_of b2 a + sh) (bk_stsupply b2 + sh) b2)) with (bk_isupply b2).
    rewrite Hia, Hvsup, Hisup.
    assert (Hsh2 : shares_of b2 p = shares_of b1 p + sh).
    { unfold shares_of at 1. rewrite Hvs, lookup_insert. reflexivity. }
    assert (Hva : v_assets p b2 = v_assets p b1 + iprove).
    { unfold v_assets. rewrite Htr, N.eqb_refl. destruct (N.eqb_spec p (ke_self K)); [congruence|]. reflexivity. }
    rewrite Hsh2, Hva. apply round_trip2; assumption.
Qed.
