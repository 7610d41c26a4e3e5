(** What the views of the staking contract answer. *)
From Verif Require Export StakingRights.
From Coq Require Import Lia ZifyBool ZifyN ZifyNat.
Open Scope N_scope.

(** ** Sums *)

(** Rounding each part down gives no more than rounding the sum. *)
Lemma div_total {X} (f : X -> N) l A B : B <> 0 ->
  list_total (fun x => f x * A / B) l <= list_total f l * A / B.
Proof.
  intros HB. induction l as [|x l IH]; [rewrite !list_total_nil, N.mul_0_l, N.div_0_l by exact HB; reflexivity|].
  rewrite !list_total_cons. etransitivity; [apply N.add_le_mono_l; exact IH|].
  apply N.div_le_lower_bound; [exact HB|].
  pose proof (N.mul_div_le (f x * A) B HB). pose proof (N.mul_div_le (list_total f l * A) B HB). lia.
Qed.

Lemma listed_le_total {V} (f : N -> V -> N) l : forall m, NoDup l -> list_total (old_value f m) l <= map_total f m.
Proof.
  induction l as [|a l IH]; intros m Hn; [rewrite list_total_nil; lia|].
  apply NoDup_cons in Hn as [Ha Hn]. rewrite list_total_cons. unfold old_value at 1. destruct (m !! a) as [v|] eqn:Hv.
  - rewrite <- (insert_delete m a v) at 2 by exact Hv. rewrite map_total_fresh by apply lookup_delete.
    apply N.add_le_mono_l. etransitivity; [|apply (IH (delete a m) Hn)]. apply list_total_le.
    intros b Hb. unfold old_value. rewrite lookup_delete_ne; [reflexivity|]. intros ->. exact (Ha Hb).
  - etransitivity; [|apply (IH m Hn)]. lia.
Qed.

(** ** Views *)

Lemma stakes_le_supply K s p : stk_inv K s -> stakes_on s p <= bk_stsupply (sk_bank s).
Proof.
  intros Hinv. rewrite (proj1 (ki_stsupply K s Hinv)). unfold stakes_on. apply map_total_le.
  intros a n _. destruct (_ =? _); lia.
Qed.

Lemma iprove_worth_ok K s n : n <= bk_isupply (sk_bank s) -> i_assets K (sk_bank s) < two256 ->
  i_preview_redeem K n (sk_bank s) = Ok (iprove_worth K s n) /\ iprove_worth K s n <= i_assets K (sk_bank s).
Proof. exact (i_preview_live K n (sk_bank s)). Qed.

Lemma share_worth_ok K s p n : stk_inv K s -> bk_stsupply (sk_bank s) + 1 < two256 -> n <= stakes_on s p ->
  v_preview_redeem p n (sk_bank s) = Ok (share_worth s p n) /\
  share_worth s p n <= tk_balance (bk_iprove (sk_bank s)) p.
Proof.
  intros Hinv Hs Hn. pose proof (stakes_le_supply K s p Hinv) as Hle.
  pose proof (balance_le_total (bk_iprove (sk_bank s)) p) as Hb. destruct (ki_total K s Hinv) as [Ht Hm].
  assert (Hw : share_worth s p n <= tk_balance (bk_iprove (sk_bank s)) p) by (apply redeem_le_assets; exact Hn).
  split; [|exact Hw]. unfold v_preview_redeem, sk_add. rewrite (ki_shares K s Hinv p).
  destruct (N.ltb_spec (stakes_on s p + 1) two256); [|lia]. cbn [sk_bind]. apply mul_div_eq; [lia|].
  unfold share_worth, redeemed in Hw. unfold v_assets. pose proof votes_small. lia.
Qed.

Lemma preview_unstake_exact K s p n : stk_inv K s -> bk_stsupply (sk_bank s) + 1 < two256 ->
  i_assets K (sk_bank s) < two256 -> n <= stakes_on s p ->
  preview_unstake K p n (sk_bank s) = Ok (iprove_worth K s (share_worth s p n)).
Proof.
  intros Hinv Hs Ha Hn. destruct (share_worth_ok K s p n Hinv Hs Hn) as [Hv Hle]. unfold preview_unstake. rewrite Hv. cbn [sk_bind].
  pose proof (balance_le_total (bk_iprove (sk_bank s)) p) as Hb. destruct (ki_total K s Hinv) as [Ht Hm].
  apply iprove_worth_ok; [lia|exact Ha].
Qed.

Lemma stake_le_on K s a : stk_inv K s -> stake_of (sk_bank s) a <= stakes_on s (bound_to s a).
Proof. intros Hinv. rewrite stakes_on_sum. apply stake_le_sum. Qed.

Lemma worth_zero K s p : iprove_worth K s (share_worth s p 0) = 0.
Proof.
  assert (share_worth s p 0 = 0) as -> by (apply N.div_0_l; lia). apply N.div_0_l. lia.
Qed.

Lemma staked_exact K s a : stk_inv K s -> bk_stsupply (sk_bank s) + 1 < two256 -> i_assets K (sk_bank s) < two256 ->
  staked K a s = Ok (iprove_worth K s (share_worth s (bound_to s a) (stake_of (sk_bank s) a))).
Proof.
  intros Hinv Hs Ha. unfold staked. destruct (N.eqb_spec (bound_to s a) 0) as [E|E].
  - destruct (ki_unbound K s Hinv a E) as [-> _]. now rewrite worth_zero.
  - apply preview_unstake_exact; auto. now apply (stake_le_on K).
Qed.

Lemma prover_staked_exact K s p : stk_inv K s -> i_assets K (sk_bank s) < two256 ->
  prover_staked K p s = Ok (iprove_worth K s (tk_balance (bk_iprove (sk_bank s)) p)).
Proof.
  intros Hinv Ha. pose proof (balance_le_total (bk_iprove (sk_bank s)) p) as Hb. destruct (ki_total K s Hinv) as [Ht Hm].
  apply iprove_worth_ok; [lia|exact Ha].
Qed.

(** Without conditions: what a view answers, if it does. *)
Lemma staked_value K s a v : stk_inv K s -> staked K a s = Ok v ->
  v = iprove_worth K s (share_worth s (bound_to s a) (stake_of (sk_bank s) a)).
Proof.
  intros Hinv. unfold staked. destruct (N.eqb_spec (bound_to s a) 0) as [E|E].
  - intros [= <-]. destruct (ki_unbound K s Hinv a E) as [-> _]. now rewrite worth_zero.
  - unfold preview_unstake, v_preview_redeem, i_preview_redeem. intros H. sk_inv. subst. unfold iprove_worth, share_worth, redeemed.
    rewrite (ki_shares K s Hinv). reflexivity.
Qed.

Lemma prover_staked_value K s p v : prover_staked K p s = Ok v ->
  v = iprove_worth K s (tk_balance (bk_iprove (sk_bank s)) p).
Proof. unfold prover_staked, i_preview_redeem. intros H. apply mul_div_ok in H as (-> & _). reflexivity. Qed.

(** The stakes of a prover together are no more than the prover has. *)
Lemma stakes_covered K s p l : stk_inv K s -> NoDup l -> Forall (fun a => bound_to s a = p) l ->
  list_total (fun a => iprove_worth K s (share_worth s p (stake_of (sk_bank s) a))) l
  <= iprove_worth K s (tk_balance (bk_iprove (sk_bank s)) p).
Proof.
  intros Hinv Hn Hl. unfold iprove_worth at 1, redeemed at 1. etransitivity; [apply (div_total (fun a => share_worth s p (stake_of (sk_bank s) a))); lia|].
  apply N.div_le_mono; [lia|]. apply N.mul_le_mono_r. unfold share_worth, redeemed.
  etransitivity; [apply (div_total (stake_of (sk_bank s))); lia|]. apply redeem_le_assets.
  rewrite stakes_on_sum. unfold stakes_sum.
  etransitivity; [|apply (listed_le_total _ l _ Hn)]. apply list_total_le. intros a Ha.
  rewrite Forall_forall in Hl. specialize (Hl a Ha). unfold old_value, stake_of.
  destruct (bk_stakes (sk_bank s) !! a) as [n|]; cbn [default from_option id]; [|lia].
  unfold bound_to in Hl. rewrite Hl, N.eqb_refl. lia.
Qed.

(** All provers together have no more than the $iPROVE vault. *)
Lemma provers_covered K s l : stk_inv K s -> NoDup l ->
  list_total (fun p => iprove_worth K s (tk_balance (bk_iprove (sk_bank s)) p)) l <= i_assets K (sk_bank s).
Proof.
  intros Hinv Hn. unfold iprove_worth, redeemed. etransitivity; [apply (div_total (tk_balance (bk_iprove (sk_bank s)))); lia|].
  apply redeem_le_assets. destruct (ki_total K s Hinv) as [Ht _]. rewrite Ht. unfold tk_total.
  etransitivity; [|apply (listed_le_total _ l _ Hn)]. apply list_total_le. intros a _. rewrite old_balance. reflexivity.
Qed.

(** ** Pending claims *)

Lemma pending_loop_value K factor claims b : forall prove v,
  pending_loop K factor claims b prove = Ok v ->
  v = prove + list_total (fun c => claim_value factor c * (i_assets K b + 1) / (bk_isupply b + 1)) claims.
Proof.
  induction claims as [|c rest IH]; cbn [pending_loop]; intros prove v H.
  - rewrite list_total_nil. injection H as <-. lia.
  - unfold i_preview_redeem in H. sk_inv. apply IH in H. rewrite list_total_cons. unfold claim_value at 1.
    subst. lia.
Qed.

Lemma pending_loop_live K factor claims b : forall prove,
  Forall (fun c => uc_factor c <> 0 /\ claim_value factor c < two256 /\ claim_value factor c <= bk_isupply b) claims ->
  i_assets K b < two256 ->
  prove + list_total (fun c => claim_value factor c * (i_assets K b + 1) / (bk_isupply b + 1)) claims < two256 ->
  exists v, pending_loop K factor claims b prove = Ok v.
Proof.
  induction claims as [|c rest IH]; cbn [pending_loop]; intros prove Hc Ha Hs; [eexists; reflexivity|].
  apply Forall_cons in Hc as [(H1 & H2 & H3) Hc]. rewrite list_total_cons in Hs.
  rewrite mul_div_eq by (try exact H1; exact H2). cbn [sk_bind]. change (uc_escrow c * factor / uc_factor c) with (claim_value factor c).
  destruct (i_preview_live K _ b H3 Ha) as [-> _]. cbn [sk_bind]. unfold sk_add.
  match goal with |- context [?x <? two256] => destruct (N.ltb_spec x two256) end; [|lia]. cbn [sk_bind].
  apply IH; [exact Hc|exact Ha|]. lia.
Qed.

Lemma unstake_pending_value K s a v : stk_inv K s -> unstake_pending K a s = Ok v -> v = pending_worth K s a.
Proof.
  intros Hinv. unfold unstake_pending, pending_worth. cbv zeta. destruct (N.eqb_spec (bound_to s a) 0) as [E|E].
  - intros [= <-]. destruct (ki_unbound K s Hinv a E) as [_ ->]. reflexivity.
  - destruct (N.eqb_spec (ep_factor (pool_of s (bound_to s a))) 0) as [F|F].
    + intros [= <-]. rewrite F. symmetry. clear. induction (claims_of s a) as [|c l IH]; [reflexivity|].
      assert (Hz : claim_value 0 c = 0).
      { unfold claim_value. rewrite N.mul_0_r. destruct (N.eq_dec (uc_factor c) 0) as [Hc|Hc]; [now rewrite Hc|now apply N.div_0_l]. }
      rewrite list_total_cons, IH, Hz. unfold iprove_worth, redeemed. rewrite N.mul_0_l, N.div_0_l by lia. reflexivity.
    + intros H. apply pending_loop_value in H. rewrite N.add_0_l in H. exact H.
Qed.

Lemma claims_value_le K L s a : multiple_ok L -> stk_inv K s -> bound_to s a <> 0 -> backed L (bound_to s a) s ->
  list_total (claim_value (ep_factor (pool_of s (bound_to s a)))) (claims_of s a) <= bk_isupply (sk_bank s).
Proof.
  intros HL Hinv Hb Hbk. transitivity (all_claims_value s (bound_to s a)).
  - unfold all_claims_value.
    pose proof (old_le_total (fun a0 l => if bound_to s a0 =? bound_to s a
      then list_total (claim_value (ep_factor (pool_of s (bound_to s a)))) l else 0) (sk_claims s) a) as H.
    etransitivity; [|exact H]. unfold old_value, claims_of. rewrite N.eqb_refl.
    destruct (sk_claims s !! a) as [l|]; cbn [default from_option id]; [reflexivity|rewrite list_total_nil; lia].
  - rewrite (backed_value K L (bound_to s a) s HL Hinv Hbk).
    rewrite (escrow_le_all s (bound_to s a)), <- (ki_escrow K s Hinv).
    destruct (ki_total K s Hinv) as [-> _]. apply balance_le_total.
Qed.

Lemma unstake_pending_live K L s a : multiple_ok L -> stk_inv K s -> (bound_to s a <> 0 -> backed L (bound_to s a) s) ->
  i_assets K (sk_bank s) < two256 -> unstake_pending K a s = Ok (pending_worth K s a).
Proof.
  intros HL Hinv Hbk Ha. destruct (unstake_pending K a s) as [v|e] eqn:Hv.
  { f_equal. now apply (unstake_pending_value K s a v Hinv). }
  exfalso. unfold unstake_pending in Hv. cbv zeta in Hv. destruct (N.eqb_spec (bound_to s a) 0) as [E|E]; [discriminate|].
  destruct (N.eqb_spec (ep_factor (pool_of s (bound_to s a))) 0) as [F|F]; [discriminate|].
  pose proof (claims_value_le K L s a HL Hinv E (Hbk E)) as Hsum. destruct (ki_total K s Hinv) as [Ht Hm].
  destruct (pending_loop_live K (ep_factor (pool_of s (bound_to s a))) (claims_of s a) (sk_bank s) 0) as [v Hv'].
  - apply Forall_forall. intros c Hc. destruct (ki_claims K s Hinv a c Hc) as [[? ?] _].
    pose proof (total_ge (claim_value (ep_factor (pool_of s (bound_to s a)))) _ c Hc). pose proof votes_small. lia.
  - exact Ha.
  - rewrite N.add_0_l. eapply N.le_lt_trans; [|exact Ha].
    etransitivity; [apply (div_total (claim_value (ep_factor (pool_of s (bound_to s a))))); lia|].
    apply redeem_le_assets. exact Hsum.
  - congruence.
Qed.

(** Payments one after the other come to no more than one payment of everything. *)
Lemma pay_sum A S n x m r :
  x * (S + 1) <= n * (A + 1) -> n + m <= S -> x <= A ->
  r * (S - n + 1) <= m * (A - x + 1) -> (x + r) * (S + 1) <= (n + m) * (A + 1).
Proof.
  intros H1 H2 Hx H3. assert (HT : 0 < S + 1 - n) by lia.
  apply (N.mul_le_mono_pos_r _ _ (S + 1 - n) HT).
  assert (E1 : exists d, S + 1 = n + m + 1 + d) by (exists (S - n - m); lia). destruct E1 as [d Ed].
  assert (E2 : exists y, A + 1 = x + y) by (exists (A + 1 - x); lia). destruct E2 as [y Ey].
  replace (A - x + 1) with y in H3 by lia. replace (S - n + 1) with (m + 1 + d) in H3 by lia.
  replace (S + 1 - n) with (m + 1 + d) by lia. rewrite Ed, Ey in *. nia.
Qed.

Lemma pay_run_total K a p done pool b evs pool' b' :
  pay_run K a p done pool b evs pool' b' -> a <> ke_iprove K -> i_total_ok b ->
  list_total ev_prove evs <= list_total ev_iprove evs * (i_assets K b + 1) / (bk_isupply b + 1).
Proof.
  intros H Ha. induction H as [pool b|c rest pool b pool1 b1 prove ev evs pool' b' Hf Hrun IH]; intros Ht.
  - rewrite !list_total_nil, N.mul_0_l, N.div_0_l by lia. lia.
  - pose proof (pr_cons K a p c [] pool b pool1 b1 prove ev [] pool1 b1 Hf (pr_nil K a p pool1 b1)) as Hone.
    pose proof (pay_run_prove K a p [c] pool b [ev] pool1 b1 Hone Ha) as (_ & Hassets & _).
    apply pay_run_ok in Hone. cbv zeta in Hone. destruct Hone as (Hpaid & _).
    pose proof (po_total K _ _ _ Hpaid Ht) as Ht1. pose proof (po_supply K _ _ _ Hpaid Ht) as Hsup.
    apply pay_run_ok in Hrun. cbv zeta in Hrun. destruct Hrun as (Hpaid1 & _).
    pose proof (po_supply K _ _ _ Hpaid1 Ht1) as Hsup1.
    specialize (IH Ht1). apply finish_request_ok in Hf as (_ & -> & _ & _ & Hb).
    rewrite !list_total_cons, !list_total_nil in *. cbn [ev_prove ev_iprove] in *.
    set (paid := N.min _ _) in *. rewrite N.add_0_r in *.
    apply N.div_le_lower_bound; [lia|]. rewrite N.mul_comm.
    apply pay_sum.
    + destruct Hb as [(-> & _ & ->)|Hb]; [lia|]. apply i_redeem_ok in Hb as (_ & _ & -> & _).
      pose proof (N.mul_div_le (paid * (i_assets K b + 1)) (bk_isupply b + 1)). lia.
    + lia.
    + lia.
    + replace (bk_isupply b - paid) with (bk_isupply b1) by lia. replace (i_assets K b - prove) with (i_assets K b1) by lia.
      pose proof (N.mul_div_le (list_total ev_iprove evs * (i_assets K b1 + 1)) (bk_isupply b1 + 1)). nia.
Qed.

Lemma pending_paid K L x a s s' evs :
  multiple_ok L -> stk_inv K s -> a <> ke_iprove K -> backed L (bound_to s a) s ->
  k_finish_unstake K x a s = Ok (s', evs) -> Forall (matured K (kx_time x)) (claims_of s a) ->
  claims_of s' a = [] /\ pending_worth K s a <= list_total ev_prove evs /\
  list_total ev_prove evs
  <= iprove_worth K s (list_total (claim_value (ep_factor (pool_of s (bound_to s a)))) (claims_of s a)).
Proof.
  intros HL Hinv Ha Hbk H Hm. pose proof H as H0.
  destruct (finish_backed_exact K L x a s s' evs HL Hinv Hbk H) as (done & Hp & Hd & Hl & He).
  assert (Hleft : claims_of s' a = []).
  { destruct (claims_of s' a) as [|c l] eqn:E; [reflexivity|]. exfalso. apply Forall_cons in Hl as [Hc _]. apply Hc.
    rewrite Forall_forall in Hm. apply Hm. rewrite Hp. apply elem_of_app. right. left. }
  split; [exact Hleft|]. rewrite Hleft, app_nil_r in Hp.
  set (f := ep_factor (pool_of s (bound_to s a))) in *.
  apply finish_unstake_ok in H0. cbv zeta in H0. fold f in H0.
  destruct H0 as (Hb0 & _ & _ & done' & left & pool & b & Hrun & _).
  pose proof (pay_run_total K a _ _ _ _ _ _ _ Hrun Ha (ki_total K s Hinv)) as Hup.
  pose proof (pay_run_rate K a _ _ _ _ _ _ _ Hrun (ki_total K s Hinv)) as Hrate.
  assert (Hi : list_total ev_iprove evs = list_total (claim_value f) done).
  { clear -He. induction He as [|c ev done evs (prove & -> & _) _ IH]; [reflexivity|].
    rewrite !list_total_cons. cbn [ev_iprove]. now rewrite IH. }
  split.
  - unfold pending_worth. fold f. rewrite (list_total_perm _ _ _ Hp).
    clear -He Hrate. induction He as [|c ev done evs (prove & -> & _) _ IH]; [rewrite !list_total_nil; lia|].
    apply Forall_cons in Hrate as [H1 H2]. rewrite !list_total_cons. cbn [ev_iprove ev_prove] in *.
    specialize (IH H2). unfold iprove_worth at 1, redeemed at 1. unfold i_assets in H1. lia.
  - rewrite (list_total_perm _ _ _ Hp), <- Hi. exact Hup.
Qed.
