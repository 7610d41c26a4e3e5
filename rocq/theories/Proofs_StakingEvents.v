(** Proofs about the events of the staking contract. *)
From Verif Require Export StakingEventsTold.
From Coq Require Import Lia ZifyBool ZifyN ZifyNat.
Open Scope N_scope.

(** ** $PROVE *)

Ltac money :=
  cbn [list_total fold_right paid_in_by paid_out_to dispensed rewarded vault_lost vault_gained app].

Lemma money_if K logs (b : bool) e before after :
  (forall a, paid_in_by a e = 0 /\ paid_out_to a e = 0) -> dispensed e = 0 -> rewarded e = 0 -> vault_lost e = 0 -> vault_gained e = 0 ->
  money_shown K logs before after -> money_shown K (logs ++ if b then [e] else []) before after.
Proof.
  intros H1 H2 H3 H4 H5 H a. specialize (H a). destruct (H1 a) as [H1a H1b]. rewrite !list_total_app, !total_if by assumption.
  rewrite !N.add_0_r. exact H.
Qed.

Lemma money_none K before : money_shown K [] before before.
Proof. intros a. money. destruct (_ =? _), (_ =? _), (_ =? _); lia. Qed.

Lemma money_app K l1 l2 b1 b2 b3 : money_shown K l1 b1 b2 -> money_shown K l2 b2 b3 -> money_shown K (l1 ++ l2) b1 b3.
Proof.
  intros H1 H2 a. specialize (H1 a). specialize (H2 a). rewrite !list_total_app.
  destruct (a =? ke_self K), (a =? ke_vapp K), (a =? ke_iprove K); lia.
Qed.

Lemma stake_money K a p n t0 t s s' evs :
  stk_addresses_ok K -> outside K a ->
  (forall y, tk_balance t y = (if y =? a then tk_balance t0 y - n else tk_balance t0 y) + (if y =? ke_self K then n else 0)) ->
  n <= tk_balance t0 a ->
  stake_for K a p n (sk_set_bank (bk_set_prove t (sk_bank s)) s) = Ok (s', evs) ->
  money_shown K (stake_logs a p s evs) t0 (bk_prove (sk_bank s')).
Proof.
  intros [Hs Hi Hd [Hv1 Hv2] _] [Ho1 Ho2] Ht Hle H.
  apply stake_for_ok in H as (_ & _ & _ & _ & _ & iprove & sh & b1 & b2 & D1 & _ & D2 & _ & Ha & _ & -> & ->).
  apply i_deposit_ok in D1 as (t1 & Htr & E1 & _). apply v_deposit_ok in D2 as (_ & _ & _ & E2 & _).
  apply transfer_from_ok in Htr as (Hle1 & _ & _ & _ & Hb). cbn [sk_set_bank sk_bank bk_set_prove bk_prove] in *.
  intros y. unfold stake_logs. rewrite !list_total_app, !total_if by reflexivity. cbn [flat_map with_transfer app]. money.
  sk_simpl. rewrite E2, E1, Hb, Ht. rewrite (N.eqb_sym a y).
  assert (Hle2 : ke_self K = y -> n <= tk_balance t y) by (intros <-; exact Hle1).
  rewrite Ht in Hle2.
  destruct (N.eqb_spec y a) as [E|E], (N.eqb_spec y (ke_self K)) as [E'|E'], (N.eqb_spec y (ke_iprove K)) as [E3|E3], (N.eqb_spec y (ke_vapp K)) as [E4|E4];
    try congruence; try (subst y; lia); try lia.
Qed.

Lemma pay_run_money K a p done pool b evs pool' b' :
  pay_run K a p done pool b evs pool' b' -> money_shown K (map LgAmounts evs) (bk_prove b) (bk_prove b').
Proof.
  induction 1 as [pool b|c rest pool b pool1 b1 prove ev evs pool' b' Hf _ IH]; cbn [map]; [apply money_none|].
  apply finish_request_ok in Hf as (_ & H). cbv zeta in H. destruct H as (-> & _ & _ & H).
  apply (money_app K [_] _ _ (bk_prove b1)); [|exact IH]. intros y. money. rewrite (N.eqb_sym a y).
  destruct H as [(_ & -> & ->)|H].
  - destruct (_ =? _), (_ =? _), (_ =? _), (_ =? _); lia.
  - apply i_redeem_ok in H as (Htr & _). apply transfer_ok in Htr as (_ & Hle & ->).
    destruct (N.eqb_spec y (ke_iprove K)) as [->|]; destruct (_ =? a), (_ =? ke_self K), (_ =? ke_vapp K); lia.
Qed.

Lemma slash_money K o n b b' prove : slash_if_nonzero K o n b = Ok (b', prove) ->
  forall y, tk_balance (bk_prove b') y + (if y =? ke_iprove K then prove else 0) = tk_balance (bk_prove b) y.
Proof.
  unfold slash_if_nonzero. destruct (n =? 0).
  - intros [= <- <-] y. destruct (_ =? _); lia.
  - intros H y. apply i_slash_ok in H as (Hb & _). apply burn_ok in Hb as (_ & Hle & ->).
    destruct (N.eqb_spec y (ke_iprove K)) as [->|]; lia.
Qed.

Lemma finish_slash_money K x p i s s' evs : k_finish_slash K x p i s = Ok (s', evs) ->
  exists burned n, evs = [EvSlash p burned n i] /\
    forall y, tk_balance (bk_prove (sk_bank s')) y + (if y =? ke_iprove K then burned else 0) = tk_balance (bk_prove (sk_bank s)) y.
Proof.
  unfold k_finish_slash. cbv zeta. intros H. sk_inv. subst.
  match goal with H : deactivate_if_below_min _ _ = Ok _ |- _ => apply deactivate_ok in H as (d & ->) end.
  do 2 eexists. split; [reflexivity|]. intros y.
  match goal with H : (if ?c then _ else _) = Ok _ |- _ => destruct c end; sk_inv; subst; sk_simpl.
  - destruct (y =? ke_iprove K); lia.
  - repeat match goal with H : slash_if_nonzero _ _ _ _ = Ok _ |- _ => pose proof (slash_money _ _ _ _ _ _ H y); clear H end.
    change (sk_bank (resolve_slash p i _ s)) with (sk_bank s) in *. destruct (y =? ke_iprove K); lia.
Qed.

Lemma call_money K x c s s' evs :
  stk_inv K s -> by_outsider K (KAccepted x c evs s') -> staking_run K x c s = Ok (s', evs) ->
  money_shown K (staking_logs K x c s s' evs) (bk_prove (sk_bank s)) (bk_prove (sk_bank s')).
Proof.
  intros Hinv Ho H. pose proof (ki_addresses K s Hinv) as HK. destruct Ho as [Ho1 Ho2].
  assert (Hq : forall new, bk_prove (sk_bank s') = bk_prove (sk_bank s) ->
    (forall e, e ∈ new -> (forall a, paid_in_by a e = 0 /\ paid_out_to a e = 0) /\ dispensed e = 0 /\ rewarded e = 0 /\ vault_lost e = 0 /\ vault_gained e = 0) ->
    money_shown K new (bk_prove (sk_bank s)) (bk_prove (sk_bank s'))).
  { intros new E Hn a. rewrite E. rewrite (total_nothing (paid_in_by a)), (total_nothing (paid_out_to a)) by (intros e He; apply Hn in He as (He & _); apply He).
    rewrite (total_nothing dispensed), (total_nothing rewarded), (total_nothing vault_lost), (total_nothing vault_gained)
      by (intros e He; apply Hn in He; tauto).
    destruct (a =? ke_self K), (a =? ke_vapp K), (a =? ke_iprove K); lia. }
  destruct c; cbn [staking_run staking_logs] in *.
  - unfold k_stake in H. sk_inv.
    match goal with H : tk_transfer_from _ _ _ _ _ = Ok ?t |- _ => apply transfer_from_ok in H as (Hle & _ & _ & _ & Hb) end.
    eapply stake_money; eassumption.
  - unfold k_permit_and_stake in H. sk_inv.
    match goal with H : tk_transfer_from _ _ _ _ _ = Ok ?t |- _ => apply transfer_from_ok in H as (Hle & _ & _ & _ & Hb) end.
    match goal with H : (if _ then _ else _) = Ok ?t1 |- _ => assert (E : forall y, tk_balance t1 y = tk_balance (bk_prove (sk_bank s)) y)
      by (destruct (_ =? _); [injection H as <-; reflexivity|]; destruct (kx_permit_valid x); [injection H as <-; reflexivity|discriminate]) end.
    eapply stake_money; [exact HK|exact Ho2| |rewrite <- E; exact Hle|exact H].
    intros y. rewrite Hb, E. reflexivity.
  - apply request_unstake_ok in H. cbv zeta in H. destruct H as (_ & _ & _ & _ & _ & b2 & e & Hr & -> & ->).
    apply v_redeem_ok in Hr as (_ & _ & _ & _ & Hp & _). cbn [flat_map with_transfer app].
    apply Hq; [exact Hp|]. intros e'. rewrite !elem_of_cons, elem_of_nil. naive_solver.
  - apply finish_unstake_ok in H. cbv zeta in H. destruct H as (_ & _ & _ & done & left & pool & b & Hrun & _ & _ & _ & Hs').
    apply pay_run_money in Hrun. unfold finish_unstake_logs. apply money_if; try reflexivity; [auto|].
    assert (Ebank : sk_bank s' = b) by (rewrite Hs'; destruct (_ && _); reflexivity). now rewrite Ebank.
  - apply request_slash_ok in H as (_ & _ & _ & _ & -> & ->). apply Hq; [reflexivity|]. intros e. cbn [map]. rewrite elem_of_list_singleton. now intros ->.
  - apply cancel_slash_ok in H as (c & _ & _ & _ & _ & -> & ->). apply Hq; [reflexivity|]. intros e. cbn [map]. rewrite elem_of_list_singleton. now intros ->.
  - apply finish_slash_money in H as (burned & n & -> & H). unfold finish_slash_logs.
    assert (Hlow : exists low : bool, deactivate_logs p s (sk_bank s') = if low then [LgDeactivation p] else []).
    { unfold deactivate_logs. repeat match goal with |- context [if ?b then _ else _] => destruct b end; solve [now exists true|now exists false]. }
    destruct Hlow as [low ->].
    apply money_if; try reflexivity; [auto|]. intros y. cbn [map]. money. specialize (H y). destruct (y =? ke_self K), (y =? ke_vapp K), (y =? ke_iprove K); lia.
  - apply dispense_ok in H as (av & t & _ & _ & H). cbv zeta in H. destruct H as (_ & _ & Htr & -> & ->). cbn [map].
    apply transfer_ok in Htr as (_ & Hle & Hb). intros y. money. sk_simpl. rewrite Hb. destruct HK as [Hs Hi Hd [Hv1 Hv2] _].
    destruct (N.eqb_spec y (ke_self K)) as [E|E], (N.eqb_spec y (ke_iprove K)) as [E'|E'], (y =? ke_vapp K); try congruence; try (subst y; lia); lia.
  - unfold k_set_dispenser in H. sk_inv. subst. apply Hq; [reflexivity|]. intros e. rewrite elem_of_list_singleton. now intros ->.
  - unfold k_update_rate in H. sk_inv. subst. apply Hq; [reflexivity|]. intros e. rewrite elem_of_list_singleton. now intros ->.
  - unfold k_create_prover in H. cbv zeta in H. sk_inv. subst. apply Hq; [reflexivity|]. intros e. rewrite elem_of_list_singleton. now intros ->.
  - apply reward_ok in H as (Hp & _ & b & sh & H & ->).
    assert (Hpre : i_preview_deposit K amount (sk_bank s) = Ok sh).
    { revert H. unfold i_deposit. intros H. apply sk_bind_ok in H as (sh' & H1 & H). sk_inv. subst. exact H1. }
    rewrite Hpre. apply i_deposit_ok in H as (t & Htr & <- & _). apply transfer_from_ok in Htr as (Hle & _ & _ & _ & Hb).
    intros y. money. sk_simpl. rewrite Hb. destruct HK as [Hs Hi Hd [Hv1 Hv2] _].
    destruct (N.eqb_spec y (ke_vapp K)) as [E|E], (N.eqb_spec y (ke_iprove K)) as [E'|E'], (y =? ke_self K); try congruence; try (subst y; lia); lia.
  - unfold k_transfer_ownership in H. sk_inv. subst. apply Hq; [reflexivity|]. intros e. rewrite elem_of_list_singleton. now intros ->.
  - unfold k_renounce_ownership in H. sk_inv. subst. apply Hq; [reflexivity|]. intros e. rewrite elem_of_list_singleton. now intros ->.
Qed.

(** ** Returned values *)

Lemma loop_total K now a p fuel : forall i claims pool b claims' pool' b' total evs,
  finish_loop K now a p fuel i claims pool b = Ok (claims', pool', b', total, evs) ->
  total = list_total vault_lost (map LgAmounts evs) /\ omap answer (map LgAmounts evs) = [].
Proof.
  induction fuel as [|fuel IH]; intros i claims pool b claims' pool' b' total evs H; cbn [finish_loop] in H.
  - injection H as <- <- <- <- <-. auto.
  - destruct (claims !! i) as [c|]; [|injection H as <- <- <- <- <-; auto]. sk_inv.
    match goal with H : (if ?c then _ else _) = _ |- _ => destruct c end; [|now apply IH in H].
    sk_inv. subst.
    match goal with H : finish_request _ _ _ _ _ _ = Ok _ |- _ => apply finish_request_ok in H as (_ & Hf) end.
    cbv zeta in Hf. destruct Hf as (-> & _).
    match goal with H : finish_loop _ _ _ _ _ _ _ _ _ = Ok _ |- _ => apply IH in H as [-> E] end.
    cbn [map]. rewrite list_total_cons. cbn [vault_lost omap list_omap answer]. auto.
Qed.

Lemma stake_answer K a p n s s0 s' evs : stake_for K a p n s0 = Ok (s', evs) ->
  stake_returns K p n (sk_bank s0) = head (omap answer (stake_logs a p s evs)).
Proof.
  intros H. apply stake_for_ok in H as (_ & _ & _ & _ & _ & iprove & sh & b1 & b2 & D1 & _ & D2 & _ & _ & _ & _ & ->).
  unfold stake_returns. rewrite D1, D2. unfold stake_logs. destruct (bound_to s a =? 0); reflexivity.
Qed.

Lemma call_returns K x c s s' evs : staking_run K x c s = Ok (s', evs) ->
  staking_returns K x c s =
    let logs := staking_logs K x c s s' evs in
    match c with KFinishUnstake _ => Some (list_total vault_lost logs) | _ => head (omap answer logs) end.
Proof.
  intros H. cbv zeta. destruct c; cbn [staking_run staking_logs staking_returns] in *; cbv zeta.
  - unfold k_stake in H. sk_inv. match goal with H : tk_transfer_from _ _ _ _ _ = Ok ?t |- _ => rewrite H end.
    exact (stake_answer _ _ _ _ _ _ _ _ H).
  - unfold k_permit_and_stake in H. sk_inv.
    match goal with H : (if _ then _ else _) = Ok ?t1 |- _ => rename H into Hp end.
    destruct (tk_allowance _ _ _ =? amount).
    + injection Hp as <-. match goal with H : tk_transfer_from _ _ _ _ _ = Ok _ |- _ => rewrite H end. exact (stake_answer _ _ _ _ _ _ _ _ H).
    + destruct (kx_permit_valid x); [|discriminate]. injection Hp as <-.
      match goal with H : tk_transfer_from _ _ _ _ _ = Ok _ |- _ => rewrite H end. exact (stake_answer _ _ _ _ _ _ _ _ H).
  - apply request_unstake_ok in H. cbv zeta in H. destruct H as (_ & _ & _ & _ & _ & b2 & e & _ & _ & ->). reflexivity.
  - unfold k_finish_unstake in H. cbv zeta in H. sk_inv. subst.
    match goal with H : finish_loop _ _ _ _ _ _ _ _ _ = Ok _ |- _ => rewrite H; apply loop_total in H as [-> _] end.
    unfold finish_unstake_logs. now rewrite list_total_app, total_if, N.add_0_r by reflexivity.
  - apply request_slash_ok in H as (_ & _ & _ & _ & _ & ->). reflexivity.
  - apply cancel_slash_ok in H as (c & _ & _ & _ & _ & _ & ->). reflexivity.
  - unfold k_finish_slash in H. cbv zeta in H. sk_inv. subst.
    match goal with H : slash_at _ _ _ = Ok _ |- _ => rewrite H end.
    unfold finish_slash_logs. cbn [map app omap list_omap answer head]. reflexivity.
  - apply dispense_ok in H as (av & t & _ & _ & _ & _ & _ & _ & ->). reflexivity.
  - reflexivity.
  - reflexivity.
  - reflexivity.
  - destruct (i_preview_deposit _ _ _); reflexivity.
  - reflexivity.
  - reflexivity.
Qed.

(** ** Reading a whole history *)

Lemma told_call K d log logs s x c s' evs :
  stk_told K d log logs s -> by_outsider K (KAccepted x c evs s') -> staking_run K x c s = Ok (s', evs) ->
  money_shown K (staking_logs K x c s s' evs) (bk_prove (sk_bank s)) (bk_prove (sk_bank s')).
Proof. intros Ht Ho H. apply (call_money K x c s s' evs); [|exact Ho|exact H]. eapply inv_run. eapply told_run. exact Ht. Qed.

Lemma connected_once a l b b' : connected a l b -> connected a l b' -> b = b'.
Proof. intros H. revert b'. induction H as [a|a b l c _ IH]; intros b' H'; inversion H'; subst; auto. Qed.

Lemma told_same K K' d log log' logs s s' :
  stk_told K d log logs s -> stk_told K' d log' logs s' -> same_told s s'.
Proof.
  intros H H'.
  destruct (told_settings _ _ _ _ _ H) as [A1 A2 A3 A4], (told_settings _ _ _ _ _ H') as [B1 B2 B3 B4].
  destruct (told_provers _ _ _ _ _ H) as [C1 C2 _ _ C5 C6 _], (told_provers _ _ _ _ _ H') as [D1 D2 _ _ D5 D6 _].
  destruct (told_stakers _ _ _ _ _ H) as [E1 _ E3 E4 E5 _], (told_stakers _ _ _ _ _ H') as [F1 _ F3 F4 F5 _].
  destruct (told_slashes _ _ _ _ _ H) as [G1 G2 _ _ G5], (told_slashes _ _ _ _ _ H') as [I1 I2 _ _ I5].
  split.
  - exact (connected_once _ _ _ _ A1 B1).
  - exact (connected_once _ _ _ _ A2 B2).
  - exact (connected_once _ _ _ _ A3 B3).
  - congruence.
  - intros p. split; apply eq_true_iff_eq; [rewrite C1, D1|rewrite C6, D6]; reflexivity.
  - apply map_eq. intros o. apply option_eq. intros p. rewrite C2, D2. reflexivity.
  - congruence.
  - intros a. split; [exact (connected_once _ _ _ _ (E1 a) (F1 a))|]. specialize (E4 a). specialize (F4 a). specialize (E5 a). specialize (F5 a).
    split; lia.
  - lia.
  - intros p. specialize (G1 p). specialize (I1 p). rewrite G1 in I1.
    assert (El : forall k, (N.of_nat k, sc_amount <$> slashes_of s p !! k) = (N.of_nat k, sc_amount <$> slashes_of s' p !! k)).
    { intros k. apply (f_equal (fun l => l !! k)) in I1. rewrite !list_lookup_imap in I1.
      destruct (slashes_of s p !! k), (slashes_of s' p !! k); cbn [fmap option_fmap option_map] in *; congruence. }
    split; [|split].
    + apply list_eq. intros k. change (map sc_amount (slashes_of s p)) with (sc_amount <$> slashes_of s p).
      change (map sc_amount (slashes_of s' p)) with (sc_amount <$> slashes_of s' p). rewrite !list_lookup_fmap. specialize (El k). congruence.
    + apply list_eq. intros k. change (map sc_resolved (slashes_of s p)) with (sc_resolved <$> slashes_of s p).
      change (map sc_resolved (slashes_of s' p)) with (sc_resolved <$> slashes_of s' p). rewrite !list_lookup_fmap. specialize (El k).
      destruct (slashes_of s p !! k) as [c|] eqn:X, (slashes_of s' p !! k) as [c'|] eqn:X'; cbn [fmap option_fmap option_map] in *; try congruence.
      f_equal. apply eq_true_iff_eq. rewrite (G2 p k c X), (I2 p k c' X'). reflexivity.
    + specialize (G5 p). specialize (I5 p). lia.
Qed.
