(** What each call of the staking contract does to what its events tell. *)
From Verif Require Export StakingEventsSpec StakingRights.
From Coq Require Import Lia ZifyBool ZifyN ZifyNat.
Open Scope N_scope.

Definition same_admin (s s' : staking) : Prop :=
  sk_owner s' = sk_owner s /\ sk_registry s' = sk_registry s /\ sk_dispensing s' = sk_dispensing s.
Definition same_slashes (s s' : staking) : Prop :=
  forall p, slashes_of s' p = slashes_of s p /\ pending_of s' p = pending_of s p.
Definition same_stakers (s s' : staking) : Prop :=
  (forall a, bound_to s' a = bound_to s a) /\ (forall a, stake_of (sk_bank s') a = stake_of (sk_bank s) a) /\
  bk_stsupply (sk_bank s') = bk_stsupply (sk_bank s) /\ (forall a, claims_of s' a = claims_of s a).
Definition held (s : staking) (p : N) : N := tk_balance (bk_iprove (sk_bank s)) p + ep_escrow (pool_of s p).
Definition same_held (s s' : staking) : Prop := forall p, held s' p = held s p.

Inductive effect (K : staking_env) (s s' : staking) : list staking_log -> Prop :=
| ef_stake a p n i sh :
    a <> 0 -> p <> 0 -> (bound_to s a = 0 \/ bound_to s a = p) ->
    same_admin s s' -> same_slashes s s' ->
    (forall y, bound_to s' y = if y =? a then p else bound_to s y) ->
    (forall y, stake_of (sk_bank s') y = stake_of (sk_bank s) y + if y =? a then sh else 0) ->
    bk_stsupply (sk_bank s') = bk_stsupply (sk_bank s) + sh ->
    (forall y, claims_of s' y = claims_of s y) ->
    (forall q, q <> ke_self K -> held s' q = held s q + if q =? p then i else 0) ->
    effect K s s' ((if bound_to s a =? 0 then [LgBound a p] else []) ++ [LgTransfer 0 a sh; LgAmounts (EvStake a p n i sh)])
| ef_request a n c :
    a <> 0 -> bound_to s a <> 0 -> same_admin s s' -> same_slashes s s' ->
    (forall y, bound_to s' y = bound_to s y) ->
    (forall y, stake_of (sk_bank s') y + (if y =? a then n else 0) = stake_of (sk_bank s) y) ->
    bk_stsupply (sk_bank s') + n = bk_stsupply (sk_bank s) ->
    (forall y, claims_of s' y = if y =? a then claims_of s y ++ [c] else claims_of s y) ->
    (forall q, q <> ke_self K -> held s' q = held s q) ->
    effect K s s' [LgTransfer a 0 n; LgAmounts (EvUnstakeRequest a (bound_to s a) n (uc_escrow c))]
| ef_finish a p done left evs (gone : bool) :
    p = bound_to s a -> p <> 0 ->
    Forall2 (fun c ev => exists prove i, ev = EvUnstake a p prove i) done evs ->
    Permutation (claims_of s a) (done ++ left) ->
    same_admin s s' -> same_slashes s s' ->
    (forall y, stake_of (sk_bank s') y = stake_of (sk_bank s) y) ->
    bk_stsupply (sk_bank s') = bk_stsupply (sk_bank s) ->
    (forall y, claims_of s' y = if y =? a then left else claims_of s y) ->
    (forall q, q <> ke_self K -> held s' q + (if q =? p then list_total ev_iprove evs else 0) = held s q) ->
    gone = (stake_of (sk_bank s') a =? 0) && (length (claims_of s' a) =? 0)%nat ->
    (forall y, bound_to s' y = if (y =? a) && gone then 0 else bound_to s y) ->
    effect K s s' (map LgAmounts evs ++ if gone then [LgUnbound a p] else [])
| ef_slash_request p n t :
    same_admin s s' -> same_stakers s s' -> same_held s s' ->
    (forall q, slashes_of s' q = if q =? p then slashes_of s q ++ [SlashClaim n t false] else slashes_of s q) ->
    (forall q, pending_of s' q = pending_of s q + if q =? p then 1 else 0) ->
    effect K s s' [LgAmounts (EvSlashRequest p n (N.of_nat (length (slashes_of s p))))]
| ef_slash_cancel p i c :
    slashes_of s p !! N.to_nat i = Some c -> sc_resolved c = false ->
    same_admin s s' -> same_stakers s s' -> same_held s s' ->
    (forall q, slashes_of s' q = if q =? p then <[N.to_nat i := SlashClaim (sc_amount c) (sc_time c) true]> (slashes_of s q)
                                 else slashes_of s q) ->
    (forall q, pending_of s' q + (if q =? p then 1 else 0) = pending_of s q) ->
    effect K s s' [LgAmounts (EvSlashCancel p (sc_amount c) i)]
| ef_slash p i c prove n (low : bool) :
    slashes_of s p !! N.to_nat i = Some c -> sc_resolved c = false ->
    sk_owner s' = sk_owner s -> sk_dispensing s' = sk_dispensing s -> same_stakers s s' ->
    rg_provers (sk_registry s') = rg_provers (sk_registry s) ->
    rg_owners (sk_registry s') = rg_owners (sk_registry s) -> rg_count (sk_registry s') = rg_count (sk_registry s) ->
    (low = true -> is_deactivated s p = false) ->
    (forall q, is_deactivated s' q = is_deactivated s q || ((q =? p) && low)) ->
    (forall q, slashes_of s' q = if q =? p then <[N.to_nat i := SlashClaim (sc_amount c) (sc_time c) true]> (slashes_of s q)
                                 else slashes_of s q) ->
    (forall q, pending_of s' q + (if q =? p then 1 else 0) = pending_of s q) ->
    (forall q, q <> ke_self K -> held s' q + (if q =? p then n else 0) = held s q) ->
    effect K s s' ([LgAmounts (EvSlash p prove n i)] ++ if low then [LgDeactivation p] else [])
| ef_dispense n :
    sk_owner s' = sk_owner s -> sk_registry s' = sk_registry s ->
    dp_dispenser (sk_dispensing s') = dp_dispenser (sk_dispensing s) -> dp_rate (sk_dispensing s') = dp_rate (sk_dispensing s) ->
    dp_distributed (sk_dispensing s') = dp_distributed (sk_dispensing s) + n ->
    same_slashes s s' -> same_stakers s s' -> same_held s s' ->
    effect K s s' [LgAmounts (EvDispense n)]
| ef_dispenser a :
    sk_owner s' = sk_owner s -> sk_registry s' = sk_registry s ->
    dp_dispenser (sk_dispensing s') = a -> dp_rate (sk_dispensing s') = dp_rate (sk_dispensing s) ->
    dp_distributed (sk_dispensing s') = dp_distributed (sk_dispensing s) ->
    same_slashes s s' -> same_stakers s s' -> same_held s s' ->
    effect K s s' [LgDispenser (dp_dispenser (sk_dispensing s)) a]
| ef_rate r :
    sk_owner s' = sk_owner s -> sk_registry s' = sk_registry s ->
    dp_dispenser (sk_dispensing s') = dp_dispenser (sk_dispensing s) -> dp_rate (sk_dispensing s') = r ->
    dp_distributed (sk_dispensing s') = dp_distributed (sk_dispensing s) ->
    same_slashes s s' -> same_stakers s s' -> same_held s s' ->
    effect K s s' [LgRate (dp_rate (sk_dispensing s)) r]
| ef_deploy p o bips :
    sk_owner s' = sk_owner s -> sk_dispensing s' = sk_dispensing s -> bips <= 10000 ->
    default 0 (rg_owners (sk_registry s) !! o) = 0 -> ~ p ∈ rg_provers (sk_registry s) ->
    rg_provers (sk_registry s') = {[p]} ∪ rg_provers (sk_registry s) ->
    rg_owners (sk_registry s') = <[o := p]> (rg_owners (sk_registry s)) ->
    rg_deactivated (sk_registry s') = rg_deactivated (sk_registry s) ->
    rg_count (sk_registry s') = (rg_count (sk_registry s) + 1) mod two256 ->
    same_slashes s s' -> same_stakers s s' -> same_held s s' ->
    effect K s s' [LgDeploy p o bips]
| ef_reward p n i :
    same_admin s s' -> same_slashes s s' -> same_stakers s s' ->
    (forall q, held s' q = held s q + if q =? p then i else 0) ->
    effect K s s' [LgReward p n i]
| ef_owner a :
    sk_owner s' = a -> sk_registry s' = sk_registry s -> sk_dispensing s' = sk_dispensing s ->
    same_slashes s s' -> same_stakers s s' -> same_held s s' ->
    effect K s s' [LgOwner (sk_owner s) a].

Lemma stake_effect K a p n t s s' evs :
  stk_inv K s -> p ∈ rg_provers (sk_registry s) -> allow_ok K t ->
  stake_for K a p n (sk_set_bank (bk_set_prove t (sk_bank s)) s) = Ok (s', evs) ->
  effect K s s' (stake_logs a p s evs).
Proof.
  intros Hinv Hp Hal H. destruct (ki_provers K s Hinv p Hp) as (Hp0 & Hps & Hpi).
  set (s0 := sk_set_bank (bk_set_prove t (sk_bank s)) s) in *.
  pose proof (stake_core _ _ _ _ _ _ _ H) as Hcore.
  pose proof (stake_frame _ _ _ _ _ _ _ H) as (F1 & F2 & _ & F4 & F5 & F6).
  apply stake_for_ok in H as (_ & _ & _ & _ & Hb & iprove & sh & b1 & b2 & D1 & _ & D2 & _ & Ha & _ & -> & ->).
  destruct (stake_bank K p n (sk_bank s0) b1 b2 iprove sh (ki_addresses K s Hinv) Hp0 Hps Hpi Hal (ki_total K s Hinv) D1 D2)
    as (_ & _ & B3 & _ & _ & B6 & B7 & _).
  unfold stake_logs. cbn [flat_map with_transfer app]. change (bound_to s0) with (bound_to s) in *.
  apply ef_stake.
  - exact Ha.
  - exact Hp0.
  - exact Hb.
  - unfold core in Hcore. rewrite !pair_equal_spec in Hcore. destruct Hcore as [[[C1 C2] C3] _].
    split; [exact C1|split; [exact C2|exact C3]].
  - intros q. unfold slashes_of, pending_of. sk_simpl. destruct (bound_to s a =? 0); auto.
  - exact F4.
  - intros y. sk_simpl. unfold stake_of at 1. cbn [bk_set_stake bk_stakes]. unfold stake_of. rewrite B6. cbn [s0 sk_set_bank sk_bank bk_set_prove bk_stakes].
    destruct (N.eqb_spec y a) as [->|Hy]; [rewrite lookup_insert; reflexivity|rewrite lookup_insert_ne by congruence; lia].
  - sk_simpl. rewrite B7. reflexivity.
  - intros y. unfold claims_of. rewrite F1. reflexivity.
  - intros q Hq. unfold held, pool_of. rewrite F2. change (sk_pools s0) with (sk_pools s). sk_simpl. rewrite B3. cbn [s0 sk_set_bank sk_bank bk_set_prove bk_iprove]. lia.
Qed.

Lemma request_effect K x n s s' evs :
  stk_inv K s -> k_request_unstake K x n s = Ok (s', evs) -> effect K s s' (flat_map with_transfer evs).
Proof.
  intros Hinv H.
  assert (Ha : kx_sender x <> 0).
  { revert H. unfold k_request_unstake. cbv zeta. intros H. sk_inv.
    match goal with H : st_burn _ _ _ = Ok _ |- _ => now apply st_burn_ok in H as (Ha & _) end. }
  apply request_unstake_ok in H. cbv zeta in H. set (a := kx_sender x) in *. set (p := bound_to s a) in *.
  destruct H as (Hn & Hp & _ & _ & Hle & b2 & e & Hr & -> & ->).
  assert (Hin : p ∈ rg_provers (sk_registry s)) by now apply (bound_inv K).
  destruct (ki_provers K s Hinv p Hin) as (Hp0 & Hps & Hpi).
  apply (request_bank K) in Hr; [|exact (ki_addresses K s Hinv)|exact Hps|].
  2: { destruct (ki_total K s Hinv). split; assumption. }
  destruct Hr as (_ & _ & B3 & B4 & _ & _ & _ & B8 & B9 & _). cbn [bk_set_stake bk_iprove bk_stakes bk_stsupply] in *.
  cbn [flat_map with_transfer app].
  match goal with |- effect K s (sk_set_claims a (claims_of s a ++ [?c]) _) _ => apply (ef_request K s _ a n c) end.
  - exact Ha.
  - exact Hp.
  - repeat split.
  - intros q. split; reflexivity.
  - reflexivity.
  - intros y. sk_simpl. unfold stake_of at 1. rewrite B8.
    destruct (N.eqb_spec y a) as [->|Hy]; [rewrite lookup_insert; cbn [default from_option id]; lia|].
    rewrite lookup_insert_ne by congruence. unfold stake_of. lia.
  - sk_simpl. rewrite B9. destruct (ki_stsupply K s Hinv) as [-> _].
    pose proof (old_le_total (fun _ n => n) (bk_stakes (sk_bank s)) a) as Ho. unfold old_value in Ho. unfold stake_of in Hle.
    destruct (bk_stakes (sk_bank s) !! a); cbn [default from_option id] in *; lia.
  - intros y. rewrite claims_set. destruct (N.eqb_spec y a) as [->|]; reflexivity.
  - intros q Hq. unfold held. change (sk_bank (sk_set_claims _ _ (sk_set_pool _ _ (sk_set_bank b2 s)))) with b2.
    rewrite pool_claims, pool_set, pool_bank, B3. destruct (N.eqb_spec q p) as [->|Hqp]; sk_simpl.
    + unfold v_assets in B4. cbn [bk_set_stake bk_iprove] in B4. lia.
    + destruct (N.eqb_spec q (ke_self K)); [congruence|lia].
Qed.

Lemma finish_effect K x a s s' evs :
  stk_inv K s -> k_finish_unstake K x a s = Ok (s', evs) -> effect K s s' (finish_unstake_logs a s s' evs).
Proof.
  intros Hinv H. apply finish_unstake_ok in H. cbv zeta in H. set (p := bound_to s a) in *.
  destruct H as (Hp & _ & _ & done & left & pool & b & Hrun & _ & _ & Hperm & Hs').
  apply pay_run_ok in Hrun. cbv zeta in Hrun. destruct Hrun as ([_ _ _ P4 (P5 & P6 & P7) _ _] & Hesc & _ & _ & Hev).
  set (pool' := if (ep_escrow pool =? 0) && negb (ep_factor pool =? slash_scalar)
                then EscrowPool (ep_escrow pool) slash_scalar else pool) in *.
  assert (Epe : ep_escrow pool' = ep_escrow pool) by (unfold pool'; destruct (_ && _); reflexivity). clearbody pool'.
  set (s1 := sk_set_claims a left (sk_set_pool p pool' (sk_set_bank b s))) in *.
  assert (Ebank : sk_bank s' = b) by (rewrite Hs'; destruct (_ && _); reflexivity).
  assert (Eclaims : forall y, claims_of s' y = if y =? a then left else claims_of s y).
  { intros y. transitivity (claims_of s1 y); [rewrite Hs'; destruct (_ && _); reflexivity|]. unfold s1. rewrite claims_set. reflexivity. }
  unfold finish_unstake_logs.
  apply (ef_finish K s s' a p done left evs).
  - reflexivity.
  - exact Hp.
  - eapply Forall2_impl; [exact Hev|]. intros c ev (prove & i & -> & _). eauto.
  - exact Hperm.
  - rewrite Hs'. destruct (_ && _); repeat split.
  - rewrite Hs'. intros q. destruct (_ && _); split; reflexivity.
  - intros y. rewrite Ebank. unfold stake_of. now rewrite P6.
  - now rewrite Ebank.
  - exact Eclaims.
  - intros q Hq. unfold held. rewrite Ebank, P4 by exact Hq.
    assert (Epool : pool_of s' q = if q =? p then pool' else pool_of s q).
    { transitivity (pool_of s1 q); [rewrite Hs'; destruct (_ && _); reflexivity|]. unfold s1. rewrite pool_claims, pool_set. reflexivity. }
    rewrite Epool. destruct (N.eqb_spec q p) as [->|]; [|lia].
    lia.
  - reflexivity.
  - intros y. rewrite Ebank, Eclaims, N.eqb_refl. rewrite Hs'.
    destruct ((stake_of b a =? 0) && (length left =? 0)%nat).
    + rewrite bound_set. change (bound_to s1 y) with (bound_to s y). now destruct (y =? a).
    + rewrite andb_false_r. reflexivity.
Qed.

Lemma pending_down K s p i c : stk_inv K s -> slashes_of s p !! N.to_nat i = Some c -> sc_resolved c = false ->
  (pending_of s p + (two256 - 1)) mod two256 + 1 = pending_of s p.
Proof.
  intros Hinv Hc Hr. destruct (ki_pending K s Hinv p) as [Hp Hl].
  pose proof (filter_insert (slashes_of s p) (N.to_nat i) c (SlashClaim (sc_amount c) (sc_time c) true) Hc) as E.
  unfold unresolved in E at 1 2. rewrite Hr in E. specialize (E eq_refl eq_refl).
  pose proof (filter_le (slashes_of s p)) as Hle. assert (Hbig : two64 < two256) by reflexivity.
  replace (pending_of s p + (two256 - 1)) with ((pending_of s p - 1) + 1 * two256) by lia.
  rewrite N.mod_add by discriminate. rewrite N.mod_small by lia. lia.
Qed.

Lemma resolved_slashes s p i c q : slashes_of (resolve_slash p i c s) q
  = if q =? p then <[N.to_nat i := SlashClaim (sc_amount c) (sc_time c) true]> (slashes_of s q) else slashes_of s q.
Proof. unfold resolve_slash. rewrite slashes_set. destruct (N.eqb_spec q p) as [->|]; reflexivity. Qed.
Lemma resolved_pending K s p i c q : stk_inv K s -> slashes_of s p !! N.to_nat i = Some c -> sc_resolved c = false ->
  pending_of (resolve_slash p i c s) q + (if q =? p then 1 else 0) = pending_of s q.
Proof.
  intros Hinv Hc Hr. unfold resolve_slash. rewrite pending_set. destruct (N.eqb_spec q p) as [->|]; [|lia].
  exact (pending_down K s p i c Hinv Hc Hr).
Qed.

Lemma deactivate_logs_ok p s s2 s' : deactivate_if_below_min p s2 = Ok s' -> sk_registry s2 = sk_registry s ->
  exists low : bool, deactivate_logs p s (sk_bank s') = (if low then [LgDeactivation p] else []) /\
    (low = true -> is_deactivated s p = false) /\
    (forall q, is_deactivated s' q = is_deactivated s q || ((q =? p) && low)) /\
    sk_bank s' = sk_bank s2 /\ rg_count (sk_registry s') = rg_count (sk_registry s).
Proof.
  intros H E. unfold deactivate_if_below_min in H. unfold deactivate_logs.
  assert (Ed : forall q, is_deactivated s2 q = is_deactivated s q) by (intros q; unfold is_deactivated; now rewrite E).
  rewrite Ed in H. destruct (is_deactivated s p) eqn:Hd.
  { injection H as <-. exists false. split; [reflexivity|]. split; [discriminate|].
    split; [intros q; rewrite Ed, andb_false_r, orb_false_r; reflexivity|]. now rewrite E. }
  destruct (N.eqb_spec (shares_of (sk_bank s2) p) 0) as [Hz|Hz].
  { injection H as <-. exists false. rewrite (proj2 (N.eqb_eq _ _) Hz). split; [reflexivity|]. split; [discriminate|].
    split; [intros q; rewrite Ed, andb_false_r, orb_false_r; reflexivity|]. now rewrite E. }
  sk_inv. match goal with H : context [?a <? min_price_per_share] |- _ => destruct (a <? min_price_per_share) eqn:Hlow end;
    sk_inv; subst s'.
  - exists true. change (sk_bank (sk_set_registry _ s2)) with (sk_bank s2). rewrite (proj2 (N.eqb_neq _ _) Hz), Hlow.
    split; [reflexivity|]. split; [reflexivity|]. split; [|now rewrite <- E].
    intros q. rewrite andb_true_r. unfold is_deactivated. cbn [sk_set_registry sk_registry rg_deactivated]. rewrite <- E.
    apply eq_true_iff_eq. rewrite orb_true_iff, !bool_decide_eq_true, elem_of_union, elem_of_singleton, N.eqb_eq. tauto.
  - exists false. rewrite (proj2 (N.eqb_neq _ _) Hz), Hlow. split; [reflexivity|]. split; [discriminate|].
    split; [intros q; rewrite Ed, andb_false_r, orb_false_r; reflexivity|]. now rewrite E.
Qed.

Lemma slash_effect K x p i s s' evs :
  stk_inv K s -> k_finish_slash K x p i s = Ok (s', evs) -> effect K s s' (finish_slash_logs p s s' evs).
Proof.
  intros Hinv H.
  destruct (finish_slash_registry K x p i s s' evs H) as (R1 & R2 & _).
  assert (Hd : exists s2, deactivate_if_below_min p s2 = Ok s' /\ sk_registry s2 = sk_registry s).
  { revert H. unfold k_finish_slash. cbv zeta. intros H. sk_inv.
    match goal with H : deactivate_if_below_min _ ?s2 = Ok _ |- _ => exists s2; subst; split; [exact H|] end.
    match goal with H : (if ?b then _ else _) = Ok (?s2, _) |- _ => destruct b; sk_inv; subst; reflexivity end. }
  destruct Hd as (s2 & Hd & E2). destruct (deactivate_logs_ok p s s2 s' Hd E2) as (low & L1 & L2 & L3 & _ & L5).
  apply finish_slash_ok in H. cbv zeta in H.
  destruct H as (c & d & burned & Hc & Hr & _ & Hp & -> & H).
  unfold finish_slash_logs. rewrite L1.
  set (total := v_assets p (sk_bank s) + ep_escrow (pool_of s p)) in *.
  set (amount := N.min (sc_amount c) total) in *.
  set (fe := amount * ep_escrow (pool_of s p) / total) in *.
  destruct (ki_provers K s Hinv p Hp) as (Hp0 & Hps & Hpi).
  assert (Hsl : forall q, slashes_of s' q = slashes_of (resolve_slash p i c s) q)
    by (intros q; destruct H as [[_ ->]|(b1 & b2 & f & _ & _ & _ & _ & ->)]; reflexivity).
  assert (Hpe : forall q, pending_of s' q = pending_of (resolve_slash p i c s) q)
    by (intros q; destruct H as [[_ ->]|(b1 & b2 & f & _ & _ & _ & _ & ->)]; reflexivity).
  apply (ef_slash K s s' p i c burned amount low); try assumption.
  - destruct H as [[_ ->]|(b1 & b2 & f & _ & _ & _ & _ & ->)]; reflexivity.
  - destruct H as [[_ ->]|(b1 & b2 & f & _ & _ & _ & _ & ->)]; reflexivity.
  - destruct H as [[_ ->]|(b1 & b2 & f & _ & [_ _ _ _ (_ & A6 & A7) _ _] & [_ _ _ _ (_ & B6 & B7) _ _] & _ & ->)]; [repeat split|].
    split; [reflexivity|]. split; [intros y; sk_simpl; unfold stake_of; now rewrite B6, A6|].
    split; [sk_simpl; congruence|reflexivity].
  - intros q. rewrite Hsl. apply resolved_slashes.
  - intros q. rewrite Hpe. now apply (resolved_pending K).
  - intros q Hq. destruct H as [[Ha ->]|(b1 & b2 & f & Ha & [_ _ A3 A4 _ _ _] & [_ _ B3 B4 _ _ _] & _ & ->)].
    + change (held (sk_set_registry _ (resolve_slash p i c s)) q) with (held s q). destruct (q =? p); lia.
    + unfold held. change (sk_bank (sk_set_registry _ (sk_set_pool _ _ (sk_set_bank b2 _)))) with b2.
      match goal with |- context [pool_of (sk_set_registry ?r ?s1) q] =>
        change (pool_of (sk_set_registry r s1) q) with (pool_of s1 q) end.
      rewrite pool_set.
      match goal with |- context [pool_of (sk_set_bank b2 ?s1) q] =>
        change (pool_of (sk_set_bank b2 s1) q) with (pool_of s q) end.
      destruct (N.eqb_spec q p) as [->|Hqp]; sk_simpl.
      * rewrite A4 in B3 by congruence.
        assert (fe <= ep_escrow (pool_of s p)) by (apply from_escrow_le; lia).
        assert (fe <= amount) by (apply N.div_le_upper_bound; [lia|]; unfold total; nia).
        lia.
      * rewrite B4, A4 by congruence. lia.
Qed.

Lemma same_all s s' : sk_slashes s' = sk_slashes s -> sk_pending s' = sk_pending s -> same_slashes s s'.
Proof. intros H1 H2 p. unfold slashes_of, pending_of. now rewrite H1, H2. Qed.

Lemma call_effect K x c s s' evs :
  stk_inv K s -> by_outsider K (KAccepted x c evs s') -> staking_run K x c s = Ok (s', evs) ->
  effect K s s' (staking_logs K x c s s' evs).
Proof.
  intros Hinv Ho H. destruct c; cbn [staking_run staking_logs] in *.
  - destruct (stake_arrives K x (KStake p amount) s s' evs (kx_sender x) p amount Hinv Ho (or_introl (conj eq_refl eq_refl)) H)
      as (t & Hp & Hal & _ & Hs). eapply stake_effect; eassumption.
  - destruct (stake_arrives K x (KPermitAndStake p from amount) s s' evs from p amount Hinv Ho (or_intror eq_refl) H)
      as (t & Hp & Hal & _ & Hs). eapply stake_effect; eassumption.
  - eapply request_effect; eassumption.
  - eapply finish_effect; eassumption.
  - apply request_slash_ok in H as (_ & _ & _ & Hlt & -> & ->). cbn [map].
    apply (ef_slash_request K s _ p amount (kx_time x)); [repeat split|repeat split|intros q; reflexivity| |].
    + intros q. rewrite slashes_set. destruct (N.eqb_spec q p) as [->|]; reflexivity.
    + intros q. rewrite pending_set. destruct (N.eqb_spec q p) as [->|]; [|lia].
      destruct (ki_pending K s Hinv p) as [Hpe _]. pose proof (filter_le (slashes_of s p)).
      assert (two64 + 1 < two256) by reflexivity. rewrite N.mod_small by lia. reflexivity.
  - apply cancel_slash_ok in H as (c & Hc & Hr & _ & _ & -> & ->). cbn [map].
    apply (ef_slash_cancel K s _ p index c Hc Hr); [repeat split|repeat split|intros q; reflexivity| |].
    + intros q. apply resolved_slashes.
    + intros q. now apply (resolved_pending K).
  - eapply slash_effect; eassumption.
  - apply dispense_ok in H as (av & t & _ & _ & _ & _ & _ & -> & ->). cbn [map].
    apply ef_dispense; try reflexivity; repeat split.
  - unfold k_set_dispenser in H. sk_inv. subst. apply ef_dispenser; try reflexivity; repeat split.
  - unfold k_update_rate in H. sk_inv. subst. apply ef_rate; try reflexivity; repeat split.
  - unfold k_create_prover in H. cbv zeta in H. sk_inv. subst. unfold create_prover_address. apply ef_deploy; try reflexivity.
    + lia.
    + lia.
    + match goal with H : is_prover _ _ = false |- _ => unfold is_prover in H; apply bool_decide_eq_false in H; exact H end.
    + repeat split.
    + repeat split.
    + repeat split.
  - apply reward_ok in H as (Hp & _ & b & sh & H & ->).
    assert (Hpre : i_preview_deposit K amount (sk_bank s) = Ok sh).
    { revert H. unfold i_deposit. intros H. apply sk_bind_ok in H as (sh' & H1 & H). sk_inv. subst. exact H1. }
    rewrite Hpre. destruct (reward_bank K p amount _ b sh (ki_addresses K s Hinv) (ki_allow K s Hinv) H) as (_ & _ & R3 & _ & (R5 & R6 & R7) & _).
    apply ef_reward; [repeat split|apply same_all; reflexivity| |].
    + split; [reflexivity|]. split; [intros y; sk_simpl; unfold stake_of; now rewrite R6|]. split; [exact R7|reflexivity].
    + intros q. unfold held. sk_simpl. rewrite R3, pool_bank. lia.
  - unfold k_transfer_ownership in H. sk_inv. subst. apply ef_owner; try reflexivity; repeat split.
  - unfold k_renounce_ownership in H. sk_inv. subst. apply ef_owner; try reflexivity; repeat split.
Qed.
