(** The contracts together: what is owed is there, withdrawals of provers become stakes, honest steps pass. *)
From Verif Require Import StakingFacts StakingUnstake StakingBank StakingValue GovernorFacts GovernorRun L1Live Proofs_Governor.
From Verif Require Export NetworkOwner NetworkStake.
From Coq Require Import Lia ZifyBool ZifyN ZifyNat.
Open Scope N_scope.

(** ** $iPROVE is worth at least one $PROVE *)

Lemma price_one A S A' S' : price_le A S A' S' -> S <= A -> S' <= A'.
Proof. unfold price_le. intros H Hs. nia. Qed.

Lemma backed_history K s log s' : stk_history K s log s' -> stk_inv K s -> Forall (by_outsider K) log ->
  bk_isupply (sk_bank s) <= i_assets K (sk_bank s) -> bk_isupply (sk_bank s') <= i_assets K (sk_bank s').
Proof.
  induction 1 as [s|s x c s1 evs log s' Hr _ IH|s x c e log s' Hr _ IH|s o t log s' Hr _ IH]; intros Hinv Ho Hb;
    [exact Hb| | |]; apply Forall_cons in Ho as [Ho1 Ho2]; apply IH; try assumption.
  - eapply inv_call; eassumption.
  - destruct (price_step K x c s s1 evs Hinv Ho1 Hr) as [Hp _]. exact (price_one _ _ _ _ Hp Hb).
  - apply inv_prove; [exact Hinv|]. apply (token_op_inv K s o t Hinv Ho1 Hr).
  - destruct (token_op_inv K s o t Hinv Ho1 Hr) as [_ Hi]. unfold i_assets in *. cbn. lia.
Qed.

Lemma shares_backed K log s : stk_run K log s -> bk_isupply (sk_bank s) <= i_assets K (sk_bank s).
Proof.
  intros [HK (prove & owner & governor & pa & dispenser & s0 & Ha & Hi & Hh) Ho].
  eapply backed_history; [exact Hh| |exact Ho|]; [eapply initial_inv; eassumption|].
  unfold staking_initialize in Hi. destruct (forallb _ _); [|discriminate]. injection Hi as <-. cbn. apply N.le_0_l.
Qed.

(** ** A reward *)

Section Reward.
Context (P A S a : N).
Let sh := a * (S + 1) / (A + 1).

Lemma sh_bounds : sh * (A + 1) <= a * (S + 1) <= sh * (A + 1) + A.
Proof.
  unfold sh. pose proof (N.div_mod (a * (S + 1)) (A + 1) ltac:(lia)) as H1.
  pose proof (N.mod_lt (a * (S + 1)) (A + 1) ltac:(lia)) as H2. set (k := a * (S + 1) / (A + 1)) in *. lia.
Qed.

Lemma reward_lower :
  P * (A + 1) / (S + 1) + a <= (P + sh) * (A + a + 1) / (S + sh + 1) + (A / (S + 1) + 1).
Proof.
  pose proof sh_bounds as [Hlo Hhi].
  assert (Hv : (P + sh) * (A + 1) / (S + 1) <= (P + sh) * (A + a + 1) / (S + sh + 1)).
  { apply N.div_le_lower_bound; [lia|].
    pose proof (div_le_mul ((P + sh) * (A + 1)) (S + 1) ltac:(lia)) as H.
    set (v := (P + sh) * (A + 1) / (S + 1)) in *.
    apply (N.mul_le_mono_pos_l _ _ (S + 1)); [lia|].
    transitivity ((S + sh + 1) * ((P + sh) * (A + 1))).
    { replace ((S + 1) * ((S + sh + 1) * v)) with ((S + sh + 1) * (v * (S + 1))) by ring. apply N.mul_le_mono_l. exact H. }
    replace ((S + 1) * ((P + sh) * (A + a + 1))) with ((P + sh) * ((S + 1) * (A + a + 1))) by ring.
    replace ((S + sh + 1) * ((P + sh) * (A + 1))) with ((P + sh) * ((S + sh + 1) * (A + 1))) by ring.
    apply N.mul_le_mono_l. nia. }
  etransitivity; [|apply N.add_le_mono_r; exact Hv].
  pose proof (N.div_mod ((P + sh) * (A + 1)) (S + 1) ltac:(lia)) as E1.
  pose proof (N.mod_lt ((P + sh) * (A + 1)) (S + 1) ltac:(lia)) as L1.
  pose proof (N.div_mod (P * (A + 1)) (S + 1) ltac:(lia)) as E2.
  pose proof (N.div_mod A (S + 1) ltac:(lia)) as E3.
  pose proof (N.mod_lt A (S + 1) ltac:(lia)) as L3.
  set (v := (P + sh) * (A + 1) / (S + 1)) in *. set (w := P * (A + 1) / (S + 1)) in *. set (q := A / (S + 1)) in *.
  set (r1 := ((P + sh) * (A + 1)) mod (S + 1)) in *. set (r2 := (P * (A + 1)) mod (S + 1)) in *.
  set (r3 := A mod (S + 1)) in *. clearbody v w q r1 r2 r3 sh.
  assert ((S + 1) * (w + a) < (S + 1) * (v + q + 2)) as H by nia.
  apply N.mul_lt_mono_pos_l in H; lia.
Qed.

Lemma reward_upper : P <= S -> (P + sh) * (A + a + 1) / (S + sh + 1) <= P * (A + 1) / (S + 1) + a.
Proof.
  intros HP. pose proof sh_bounds as [Hlo Hhi].
  pose proof (div_le_mul ((P + sh) * (A + a + 1)) (S + sh + 1) ltac:(lia)) as H.
  set (w' := (P + sh) * (A + a + 1) / (S + sh + 1)) in *.
  assert (Hw : w' * (S + 1) <= P * (A + 1) + a * (S + 1)).
  { apply (N.mul_le_mono_pos_l _ _ (S + sh + 1)); [lia|].
    transitivity ((S + 1) * ((P + sh) * (A + a + 1))).
    { replace ((S + sh + 1) * (w' * (S + 1))) with ((S + 1) * (w' * (S + sh + 1))) by ring. apply N.mul_le_mono_l. exact H. }
    clearbody w' sh. clear H.
    assert (He : exists e, a * (S + 1) = sh * (A + 1) + e) by (exists (a * (S + 1) - sh * (A + 1)); lia).
    destruct He as [e He].
    replace ((S + 1) * ((P + sh) * (A + a + 1))) with ((P + sh) * ((S + 1) * (A + 1) + a * (S + 1))) by ring.
    rewrite He.
    replace ((P + sh) * ((S + 1) * (A + 1) + (sh * (A + 1) + e))) with ((P + sh) * (A + 1) * (S + sh + 1) + (P + sh) * e) by ring.
    replace ((S + sh + 1) * (P * (A + 1) + (sh * (A + 1) + e))) with ((P + sh) * (A + 1) * (S + sh + 1) + (S + sh + 1) * e) by ring.
    apply N.add_le_mono_l, N.mul_le_mono_r. lia. }
  rewrite <- N.div_add by lia. apply N.div_le_lower_bound; [lia|]. lia.
Qed.
End Reward.

Lemma reward_value K log s x p a s' evs :
  stk_run K log s -> staking_run K x (KReward p a) s = Ok (s', evs) ->
  let A := tk_balance (bk_prove (sk_bank s)) (ke_iprove K) in
  let worth s := iprove_worth K s (tk_balance (bk_iprove (sk_bank s)) p) in
  tk_balance (bk_prove (sk_bank s')) (ke_iprove K) = A + a /\
  tk_balance (bk_prove (sk_bank s')) (ke_vapp K) + a = tk_balance (bk_prove (sk_bank s)) (ke_vapp K) /\
  worth s' <= worth s + a /\ worth s + a <= worth s' + (A / (bk_isupply (sk_bank s) + 1) + 1) /\
  (forall n, iprove_worth K s n <= iprove_worth K s' n) /\
  (forall q, q <> p -> tk_balance (bk_iprove (sk_bank s')) q = tk_balance (bk_iprove (sk_bank s)) q) /\
  sk_bound s' = sk_bound s /\ bk_stakes (sk_bank s') = bk_stakes (sk_bank s).
Proof.
  intros Hr H A worth. pose proof (inv_run _ _ _ Hr) as Hinv. cbn [staking_run] in H.
  apply reward_ok in H as (Hp & _ & b & sh & Hd & ->). pose proof Hd as Hd'.
  destruct (reward_bank K p a _ b sh (ki_addresses _ _ Hinv) (ki_allow _ _ Hinv) Hd) as (_ & _ & Hb & Hs & Hsame & Hpr).
  apply i_deposit_ok in Hd as (t & Htr & Ht & _ & Hsh & _ & _ & _ & _). apply transfer_from_ok in Htr as (Hle & _ & _ & _ & Hbp).
  destruct (ki_addresses _ _ Hinv) as [_ _ _ [Hv1 Hv2] _]. rewrite <- Ht in Hbp.
  assert (HA : tk_balance (bk_prove b) (ke_iprove K) = A + a).
  { rewrite Hbp, N.eqb_refl. destruct (N.eqb_spec (ke_iprove K) (ke_vapp K)); [congruence|reflexivity]. }
  assert (Hsh' : sh = a * (bk_isupply (sk_bank s) + 1) / (A + 1)) by exact Hsh.
  unfold worth, iprove_worth, redeemed. cbn [sk_bank sk_set_bank sk_bound]. rewrite HA, Hs, Hb, N.eqb_refl.
  pose proof (balance_le_total (bk_iprove (sk_bank s)) p) as Htot. destruct (ki_total _ _ Hinv) as [Hit _]. fold A.
  set (P := tk_balance (bk_iprove (sk_bank s)) p) in *. set (S := bk_isupply (sk_bank s)) in *.
  split; [reflexivity|]. split.
  { rewrite Hbp, N.eqb_refl. destruct (N.eqb_spec (ke_vapp K) (ke_iprove K)); [congruence|lia]. }
  rewrite Hsh'. split; [apply reward_upper; lia|]. split; [apply reward_lower|].
  split; [|split; [|split]].
  - intros n. unfold i_price in Hpr. apply (preview_mono A S (A + a) (S + a * (S + 1) / (A + 1)) n n); [|lia].
    unfold i_assets in Hpr. rewrite HA, Hs, Hsh' in Hpr. exact Hpr.
  - intros q Hq. rewrite Hb. destruct (N.eqb_spec q p); [congruence|apply N.add_0_r].
  - reflexivity.
  - destruct Hsame as (_ & H & _). exact H.
Qed.

(** ** Payments of a step *)

Lemma kept_sees Y x n : va_staking (nw_vapp n) = ne_staking Y ->
  sees_prover Y x n = fun a => is_prover (w_staking (nw_world n)) a.
Proof. intros H. unfold sees_prover. rewrite H, N.eqb_refl. reflexivity. Qed.

Lemma sum_total {X} (f : X -> N) l : sum f l = list_total f l.
Proof. unfold sum, list_total. induction l; cbn; congruence. Qed.

Lemma payments_pay Y x n n' rs a : va_staking (nw_vapp n') = ne_staking Y ->
  rg_provers (sk_registry (w_staking (nw_world n'))) = rg_provers (sk_registry (w_staking (nw_world n))) ->
  sum (paid (net_l1 Y) (l1_ctx_of Y x n')) rs = list_total snd (flat_map reported_withdrawal rs) /\
  sum (received (net_l1 Y) (l1_ctx_of Y x n') a) rs =
    list_total snd (List.filter (fun w => pay_to Y n w =? a) (flat_map reported_withdrawal rs)).
Proof.
  intros Hk Hp. induction rs as [|r rs [IH1 IH2]]; [split; reflexivity|].
  unfold sum, list_total in *. cbn [fold_right flat_map]. rewrite IH1, IH2. unfold paid, received, payment, reported_withdrawal.
  destruct (sr_tx_id r =? 2 ^ 64 - 1); [|split; reflexivity]. destruct (sr_status r); try (split; reflexivity).
  destruct (withdrawal (sr_action r)) as [[account amount]|]; [|split; reflexivity].
  cbn [cx_is_prover l1_ctx_of le_iprove net_l1 app List.filter].
  rewrite (kept_sees Y x n' Hk). unfold pay_to, is_prover. cbn [fst]. rewrite Hp.
  destruct (bool_decide _); (destruct (_ =? a) in *; split; reflexivity).
Qed.

Lemma step_pays Y t0 n0 log n now x pv pf n' p :
  net_run Y t0 n0 log n now -> Forall keeps_staking log -> net_run_call Y x (CVApp (CStep pv pf)) n = Ok n' ->
  ne_decode Y pv = Some p ->
  forall a, tk_balance (prove_of (nw_world n')) a +
      (if a =? ne_vapp Y then list_total snd (flat_map reported_withdrawal (pv_receipts p)) else 0)
    = tk_balance (prove_of (nw_world n)) a +
      list_total snd (List.filter (fun w => pay_to Y n w =? a) (flat_map reported_withdrawal (pv_receipts p))).
Proof.
  intros Hr Hk Hc Hd a. pose proof (net_addresses _ _ _ _ _ _ Hr) as Ha.
  destruct (call_registry Y x _ n n' Hc I) as [_ Hp]. pose proof (net_kept _ _ _ _ _ _ Hr Hk) as Hs.
  rewrite <- (call_keeps_staking Y Ha x _ [] n n' Hc I) in Hs.
  apply (vapp_call Y Ha) in Hc.
  destruct (payments_pay Y x n n' (pv_receipts p) a Hs Hp) as [<- <-].
  cbn [l1_run] in Hc. apply step_ok in Hc as (p' & Hp' & Hc).
  assert (p' = p) as -> by (destruct Hp'; cbn in *; congruence).
  exact (handle_payments (net_l1 Y) _ (pv_receipts p) _ (vapp_of n') Hc a).
Qed.

(** ** Honest steps *)

Section Live.
Context (Y : net_env) (Ha : net_addresses_ok Y).

Lemma reward_live t0 w0 log w now to amount t y :
  gov_run (net_gov Y) t0 w0 log w now -> kx_time y = now -> kx_sender y = ne_vapp Y ->
  is_prover (w_staking w) to = true ->
  tk_transfer_from (prove_of w) (ne_iprove Y) (ne_vapp Y) (ne_iprove Y) amount = Ok t ->
  tk_balance (prove_of w) (ne_iprove Y) + tk_balance (prove_of w) (ne_vapp Y) < 2 ^ 208 ->
  exists w', world_run (net_gov Y) y (WStaking (KReward to amount)) w = Ok w'.
Proof using Ha.
  intros Hr Ht Hs Hp Htr Hsup.
  assert (Hby : by_anyone (net_gov Y) w y (WStaking (KReward to amount))).
  { split; [rewrite Hs; eapply vapp_acts; eassumption|exact I]. }
  pose proof (C79_unimpeded_proof (net_gov Y) t0 w0 log w now y (KReward to amount) Hr Ht Hby) as Hu.
  destruct (gov_stk _ _ _ _ _ _ Hr) as (klog & Hk & _). pose proof (inv_run _ _ _ Hk) as Hinv.
  pose proof (shares_backed _ _ _ Hk) as Hsa. unfold i_assets in Hsa. cbn [ge_staking net_gov ke_iprove net_staking] in Hsa.
  assert (Hto : to <> 0) by (apply is_prover_in in Hp; apply (ki_provers _ _ Hinv to Hp)).
  pose proof (transfer_from_ok _ _ _ _ _ _ Htr) as (Hle & _).
  unfold prove_of in *. set (b := sk_bank (w_staking w)) in *.
  set (A := tk_balance (bk_prove b) (ne_iprove Y)) in *. set (S := bk_isupply b) in *.
  assert (Hsh : amount * (S + 1) / (A + 1) <= amount).
  { apply N.div_le_upper_bound; [lia|]. rewrite (N.mul_comm (A + 1)). apply N.mul_le_mono_l. lia. }
  assert (Hok : exists s evs, forall z, staking_run (net_staking Y) z (KReward to amount) (w_staking w) = Ok (s, evs)).
  { do 2 eexists. intros z. cbn [staking_run]. unfold k_reward. rewrite Hp. cbn [sk_require sk_bind].
    unfold i_deposit, i_preview_deposit. fold b. unfold i_assets. cbn [ke_iprove ke_vapp net_staking]. fold A S.
    rewrite mul_div_eq; [|lia|eapply N.le_lt_trans; [exact Hsh|]; apply N.le_lt_trans with (2 ^ 208); [lia|reflexivity]]. cbn [sk_bind]. rewrite Htr. cbn [sk_token sk_bind].
    unfold i_mint. rewrite (proj2 (N.eqb_neq _ _) Hto). cbn [negb sk_require sk_bind bk_isupply bk_set_prove].
    fold S. rewrite (proj2 (N.leb_le _ _)); [|unfold max_votes_supply; lia]. cbn [sk_require sk_bind]. reflexivity. }
  destruct Hok as (s & evs & Hok). rewrite Hok in Hu. destruct Hu as [v Hu]. eauto.
Qed.

Definition in_vaults (n : network) : N := tk_balance (prove_of (nw_world n)) (ne_iprove Y) + tk_balance (prove_of (nw_world n)) (ne_vapp Y).

Lemma withdraw_live x to amount n v' t0 w0 log :
  gov_run (net_gov Y) t0 w0 log (nw_world n) (nx_time x) -> va_staking (nw_vapp n) = ne_staking Y -> in_vaults n < 2 ^ 208 ->
  process_withdraw (net_l1 Y) (step_ctx x (sees_prover Y x n)) to amount (vapp_of n) = Ok v' ->
  exists n', net_withdraw Y x to amount n = Ok n' /\ vapp_of n' = v' /\ in_vaults n' <= in_vaults n.
Proof using Ha.
  intros Hr Hs Hsup Hp.
  assert (Hex : exists n', net_withdraw Y x to amount n = Ok n').
  { unfold net_withdraw, process_withdraw in *. cbn [cx_is_prover step_ctx] in Hp.
    destruct (sees_prover Y x n to) eqn:Hto; l1_inv.
    - rewrite (kept_sees Y x n Hs) in Hto.
      match goal with H : tk_transfer_from _ _ _ _ _ = Ok ?y |- _ => rename H into Et; rename y into t end.
      destruct (reward_live t0 w0 log (nw_world n) (nx_time x) to amount t (world_ctx (ne_vapp Y) x false) Hr eq_refl eq_refl Hto Et Hsup)
        as [w' Hw]. unfold on_world. rewrite Hw. eauto.
    - match goal with H : tk_transfer _ _ _ _ = Ok ?y |- _ => rename H into Et; rename y into t end.
      unfold on_world. cbn [world_run]. unfold token_step. cbn [run_token_op].
      unfold vapp_of in Et. cbn in Et. fold (prove_of (nw_world n)). rewrite Et. eauto. }
  destruct Hex as [n' Hn]. exists n'. split; [exact Hn|].
  pose proof (withdraw_settle Y x to amount n n' Hn) as [Hw _]. assert (vapp_of n' = v') as Hv by congruence.
  split; [exact Hv|]. assert (prove_of (nw_world n') = va_prove v') as Ht by (rewrite <- Hv; reflexivity).
  unfold in_vaults. rewrite Ht. destruct (addresses_differ Y Ha) as (?&?&?&?&?&?).
  clear Hw Hn Hv. unfold process_withdraw in Hp. destruct (cx_is_prover _ _); l1_inv; subst v'; cbn [va_prove va_set_prove];
    match goal with H : _ = Ok ?y |- _ => rename H into Et end;
    unfold vapp_of in Et; cbn [va_prove va_set_prove le_iprove le_self net_l1] in Et.
  - apply transfer_from_ok in Et as (Hle & _ & _ & _ & Hb). rewrite !Hb, !N.eqb_refl.
    destruct (N.eqb_spec (ne_iprove Y) (ne_vapp Y)); [congruence|]. destruct (N.eqb_spec (ne_vapp Y) (ne_iprove Y)); [congruence|]. lia.
  - apply TokenFacts.transfer_ok in Et as (_ & Hle & Hb). rewrite !Hb, !N.eqb_refl.
    destruct (N.eqb_spec (ne_iprove Y) (ne_vapp Y)); [congruence|].
    destruct (N.eqb_spec (ne_iprove Y) to), (N.eqb_spec (ne_vapp Y) to); subst; try congruence; lia.
Qed.

Lemma receipts_live x rs : forall n v' t0 w0 log,
  gov_run (net_gov Y) t0 w0 log (nw_world n) (nx_time x) -> va_staking (nw_vapp n) = ne_staking Y -> in_vaults n < 2 ^ 208 ->
  handle_receipts (net_l1 Y) (step_ctx x (sees_prover Y x n)) rs (vapp_of n) = Ok v' ->
  exists n', net_receipts Y x rs n = Ok n'.
Proof using Ha.
  induction rs as [|r rs IH]; intros n v' t0 w0 log Hr Hs Hsup H; cbn [net_receipts handle_receipts] in *; [eauto|].
  destruct (if negb _ then _ else _) as [v1|] eqn:E1 in H; [|discriminate]. cbn [l1_bind] in H.
  enough (exists n1, (if negb (sr_tx_id r =? u64_max) then on_vapp (handle_onchain_receipt r) n
                      else net_offchain_receipt Y x r n) = Ok n1 /\ vapp_of n1 = v1 /\
    (exists log1, gov_run (net_gov Y) t0 w0 log1 (nw_world n1) (nx_time x)) /\
    va_staking (nw_vapp n1) = ne_staking Y /\ in_vaults n1 < 2 ^ 208 /\ sees_prover Y x n1 = sees_prover Y x n)
    as (n1 & -> & Hv & (log1 & Hr1) & Hs1 & Hsup1 & Hq).
  { cbn [net_bind]. rewrite <- Hv, <- Hq in H. exact (IH n1 v' t0 w0 log1 Hr1 Hs1 Hsup1 H). }
  destruct (negb _).
  - assert (Hex : exists n1, on_vapp (handle_onchain_receipt r) n = Ok n1) by (unfold on_vapp; rewrite E1; eauto).
    destruct Hex as [n1 Hn]. exists n1. split; [exact Hn|].
    apply on_vapp_same in Hn as (Hh & Hw & Hv); [|intros v v2; apply onchain_token]. rewrite Hv, Hw.
    assert (Hset : va_staking (nw_vapp n1) = va_staking (nw_vapp n)).
    { apply onchain_settings in Hh. unfold settings in Hh. injection Hh as _ _ _ _ Hx _ _. exact Hx. }
    split; [congruence|]. split; [eauto|]. split; [congruence|]. split; [unfold in_vaults in *; now rewrite Hw|].
    apply sees_same; [exact Hset|now rewrite Hw].
  - unfold handle_offchain_receipt in E1. unfold net_offchain_receipt.
    destruct (sr_status r); try discriminate.
    + destruct (sr_variant r); try discriminate. destruct (l1_decode_withdraw _) as [a|]; [|discriminate]. cbn [l1_bind] in E1.
      destruct (withdraw_live x (wa_account a) (wa_amount a) n v1 t0 w0 log Hr Hs Hsup E1) as (n1 & Hn & Hv & Hle).
      exists n1. split; [exact Hn|]. split; [exact Hv|].
      apply (withdraw_ext Y Ha) in Hn as (Hva & Hse & l & Hl & _).
      split; [exists (log ++ l); now apply Hl|]. rewrite Hva. split; [exact Hs|]. split; [lia|exact Hse].
    + injection E1 as <-. exists n. repeat (split; [first [reflexivity|eassumption|eauto]|]). reflexivity.
Qed.

Lemma step_live x pv pf n v' t0 w0 log :
  gov_run (net_gov Y) t0 w0 log (nw_world n) (nx_time x) -> va_staking (nw_vapp n) = ne_staking Y -> in_vaults n < 2 ^ 208 ->
  l1_step (net_l1 Y) (l1_ctx_of Y x n) pv pf (vapp_of n) = Ok v' ->
  exists n', net_step Y x pv pf n = Ok n'.
Proof using Ha.
  intros Hr Hs Hsup H. unfold l1_step in H. unfold net_step. cbn [le_decode net_l1] in H.
  destruct (l1_require (cx_sender _ =? _) _) eqn:R1 in H; [|discriminate].
  destruct (l1_require (negb (va_paused _)) _) eqn:R2 in H; [|discriminate].
  destruct (l1_require (le_verify _ _ _ _ _) _) eqn:R3 in H; [|discriminate]. cbn [l1_bind] in H.
  destruct (ne_decode Y pv) as [p|] eqn:Ed; [|discriminate].
  assert (Hop : exists v1, open_block (net_l1 Y) (l1_ctx_of Y x n) pv pf p (vapp_of n) = Ok v1 /\
    handle_receipts (net_l1 Y) (l1_ctx_of Y x n) (pv_receipts p) v1 = Ok v').
  { unfold open_block. rewrite R1, R2, R3. cbn [l1_bind].
    repeat match type of H with
    | l1_bind ?m _ = Ok _ => destruct m; [cbn [l1_bind] in H |- *|discriminate]
    end. eauto. }
  destruct Hop as (v1 & Hop & Hh).
  assert (Hex : exists n1, on_vapp (open_block (net_l1 Y) (l1_ctx_of Y x n) pv pf p) n = Ok n1) by (unfold on_vapp; rewrite Hop; eauto).
  destruct Hex as [n1 Hn]. rewrite Hn. cbn [net_bind]. pose proof (onchain_step_sees Y x pv pf p n n1 Hn) as [_ Hsee].
  apply on_vapp_same in Hn as (Ho & Hw & Hv); [|intros v v2; apply open_block_token].
  assert (vapp_of n1 = v1) as Hv1 by congruence.
  apply (receipts_live x (pv_receipts p) n1 v' t0 w0 log).
  - now rewrite Hw.
  - rewrite <- Hs. unfold open_block in Ho. l1_inv. match goal with H : _ = nw_vapp n1 |- _ => rewrite <- H end. reflexivity.
  - unfold in_vaults in *. now rewrite Hw.
  - rewrite Hv1, Hsee. exact Hh.
Qed.
End Live.
