(** Who may do what, and what requests and registrations change. *)
From Verif Require Export StakingExact.
From Coq Require Import Lia ZifyBool ZifyN ZifyNat.
Open Scope N_scope.

(** Parts of the state that stakes and payments leave alone. *)
Definition core (s : staking) := (sk_owner s, sk_registry s, sk_dispensing s, sk_slashes s).

Lemma stake_core K a p n s s' evs : stake_for K a p n s = Ok (s', evs) -> core s' = core s.
Proof.
  intros H. apply stake_for_ok in H as (_ & _ & _ & _ & _ & i & sh & b1 & b2 & _ & _ & _ & _ & _ & _ & -> & _).
  unfold core. sk_simpl. destruct (bound_to s a =? 0); reflexivity.
Qed.

Lemma core_kept K x c s s' evs :
  match c with
  | KStake _ _ | KPermitAndStake _ _ _ | KRequestUnstake _ | KFinishUnstake _ | KReward _ _ => True
  | _ => False
  end -> staking_run K x c s = Ok (s', evs) -> core s' = core s.
Proof.
  intros Hc H. destruct c; try contradiction; cbn [staking_run] in H.
  - apply stake_call_ok in H as (t & _ & _ & H). apply stake_core in H. exact H.
  - apply permit_stake_ok in H as (t1 & t & _ & _ & _ & H). apply stake_core in H. exact H.
  - apply request_unstake_ok in H. cbv zeta in H. destruct H as (_ & _ & _ & _ & _ & b & e & _ & -> & _). reflexivity.
  - apply finish_unstake_ok in H. cbv zeta in H. destruct H as (_ & _ & _ & d & l & po & b & _ & _ & _ & _ & ->).
    destruct ((stake_of b staker =? 0) && (length l =? 0)%nat); reflexivity.
  - apply reward_ok in H as (_ & _ & b & sh & _ & ->). reflexivity.
Qed.

Lemma core_eq s s' : core s' = core s ->
  sk_owner s' = sk_owner s /\ sk_registry s' = sk_registry s /\ sk_dispensing s' = sk_dispensing s /\
  (forall p, slashes_of s' p = slashes_of s p).
Proof.
  unfold core. rewrite !pair_equal_spec. intros [[[H1 H2] H3] H4]. unfold slashes_of. rewrite H4. auto.
Qed.

(** Settings and rewards. *)
Lemma settings_change K x c s s' evs : staking_run K x c s = Ok (s', evs) ->
  (sk_owner s' <> sk_owner s \/ dp_dispenser (sk_dispensing s') <> dp_dispenser (sk_dispensing s) \/
   dp_rate (sk_dispensing s') <> dp_rate (sk_dispensing s) -> kx_sender x = sk_owner s) /\
  (dp_distributed (sk_dispensing s') <> dp_distributed (sk_dispensing s) ->
   kx_sender x = dp_dispenser (sk_dispensing s)).
Proof.
  intros H. destruct c.
  1, 2, 3, 4, 12: apply core_kept in H; [|exact I]; apply core_eq in H as (-> & _ & -> & _); tauto.
  - apply request_slash_ok in H as (_ & _ & _ & _ & -> & _). cbn. tauto.
  - apply cancel_slash_ok in H as (c & _ & _ & _ & _ & -> & _). cbn. tauto.
  - apply finish_slash_ok in H. cbv zeta in H. destruct H as (c & d & b & _ & _ & Hx & _ & _ & H). split; [auto|].
    destruct H as [[_ ->]|(b1 & b2 & f & _ & _ & _ & _ & ->)]; cbn; tauto.
  - apply dispense_ok in H. cbv zeta in H. destruct H as (a & t & Hx & _ & _ & _ & _ & -> & _). cbn. tauto.
  - cbn [staking_run] in H. unfold k_set_dispenser in H. sk_inv. subst. cbn. split; [intros _; lia|tauto].
  - cbn [staking_run] in H. unfold k_update_rate in H. sk_inv. subst. cbn. split; [intros _; lia|tauto].
  - apply create_prover_ok in H as (d & n & _ & _ & ->). cbn. tauto.
  - cbn [staking_run] in H. unfold k_transfer_ownership in H. sk_inv. subst. cbn. split; [intros _; lia|tauto].
  - cbn [staking_run] in H. unfold k_renounce_ownership in H. sk_inv. subst. cbn. split; [intros _; lia|tauto].
Qed.

Lemma slashes_changes K x c s s' evs p : staking_run K x c s = Ok (s', evs) ->
  slashes_of s' p = slashes_of s p \/
  (p ∈ rg_provers (sk_registry s) /\ slashes_change K x (sk_owner s) (slashes_of s p) (slashes_of s' p)).
Proof.
  intros H. destruct c.
  1, 2, 3, 4, 12: apply core_kept in H; [|exact I]; apply core_eq in H as (_ & _ & _ & ->); auto.
  - apply request_slash_ok in H as (Hx & Hp & Hn & _ & -> & _). rewrite slashes_set.
    destruct (N.eqb_spec p p0) as [->|]; [right|auto]. split; [exact Hp|]. exact (sc_requested _ _ _ _ _ amount Hx Hn eq_refl).
  - apply cancel_slash_ok in H as (c & Hc & Hr & Hp & Ht & -> & _). unfold resolve_slash. rewrite slashes_set.
    destruct (N.eqb_spec p p0) as [->|]; [right|auto]. split; [exact Hp|].
    exact (sc_settled _ _ _ _ _ (N.to_nat index) c Hc Hr (or_intror Ht) eq_refl).
  - apply finish_slash_ok in H. cbv zeta in H. destruct H as (c & d & b & Hc & Hr & Hx & Hp & _ & H).
    assert (E : slashes_of s' p = slashes_of (resolve_slash p0 index c s) p)
      by (destruct H as [[_ ->]|(b1 & b2 & f & _ & _ & _ & _ & ->)]; reflexivity).
    rewrite E. unfold resolve_slash. rewrite slashes_set.
    destruct (N.eqb_spec p p0) as [->|]; [right|auto]. split; [exact Hp|].
    exact (sc_settled _ _ _ _ _ (N.to_nat index) c Hc Hr (or_introl Hx) eq_refl).
  - apply dispense_ok in H. cbv zeta in H. destruct H as (a & t & Hx & _ & _ & _ & _ & -> & _). auto.
  - cbn [staking_run] in H. unfold k_set_dispenser in H. sk_inv. subst. auto.
  - cbn [staking_run] in H. unfold k_update_rate in H. sk_inv. subst. auto.
  - apply create_prover_ok in H as (d & n & _ & _ & ->). auto.
  - cbn [staking_run] in H. unfold k_transfer_ownership in H. sk_inv. subst. auto.
  - cbn [staking_run] in H. unfold k_renounce_ownership in H. sk_inv. subst. auto.
Qed.

(** ** The registry *)

Lemma deactivate_iff p s s' : deactivate_if_below_min p s = Ok s' ->
  sk_bank s' = sk_bank s /\ rg_provers (sk_registry s') = rg_provers (sk_registry s) /\
  rg_owners (sk_registry s') = rg_owners (sk_registry s) /\
  forall q, q ∈ rg_deactivated (sk_registry s') <->
    (q ∈ rg_deactivated (sk_registry s) \/ (q = p /\ below_min p (sk_bank s))).
Proof.
  unfold deactivate_if_below_min, is_deactivated, below_min. intros H.
  destruct (decide (p ∈ rg_deactivated (sk_registry s))) as [Hin|Hin].
  - rewrite bool_decide_true in H by exact Hin. sk_inv. subst. repeat (split; [reflexivity|]).
    intros q. split; [auto|]. intros [?|[-> _]]; auto.
  - rewrite bool_decide_false in H by exact Hin.
    destruct (N.eqb_spec (shares_of (sk_bank s) p) 0) as [E|E].
    + sk_inv. subst. repeat (split; [reflexivity|]). intros q. split; [auto|]. intros [?|[_ [? _]]]; [auto|contradiction].
    + sk_inv. match goal with H : context [?a <? min_price_per_share] |- _ => destruct (N.ltb_spec a min_price_per_share) end; sk_inv; subst.
      * cbn [sk_set_registry sk_bank sk_registry rg_provers rg_owners rg_deactivated]. repeat (split; [reflexivity|]).
        intros q. rewrite elem_of_union, elem_of_singleton. tauto.
      * repeat (split; [reflexivity|]). intros q. split; [auto|]. intros [?|[_ [_ ?]]]; [auto|lia].
Qed.

Lemma finish_slash_registry K x p i s s' evs : k_finish_slash K x p i s = Ok (s', evs) ->
  rg_provers (sk_registry s') = rg_provers (sk_registry s) /\
  rg_owners (sk_registry s') = rg_owners (sk_registry s) /\
  forall q, q ∈ rg_deactivated (sk_registry s') <->
    (q ∈ rg_deactivated (sk_registry s) \/ (q = p /\ below_min p (sk_bank s'))).
Proof.
  unfold k_finish_slash. cbv zeta. intros H. sk_inv.
  match goal with H : deactivate_if_below_min _ _ = Ok _ |- _ => apply deactivate_iff in H as (Hb & Hp & Ho & Hd) end.
  match goal with H : (if ?b then _ else _) = Ok (?s2, _) |- _ =>
    assert (E : sk_registry s2 = sk_registry s) by (destruct b; sk_inv; subst; reflexivity) end.
  subst. rewrite Hb, Hp, Ho, E in *. split; [reflexivity|]. split; [reflexivity|]. exact Hd.
Qed.

Lemma create_prover_full K x bips s s' evs : k_create_prover K x bips s = Ok (s', evs) ->
  exists p, bips <= 10000 /\ default 0 (rg_owners (sk_registry s) !! kx_sender x) = 0 /\
    ~ p ∈ rg_provers (sk_registry s) /\
    (exists n, p = ke_create2 K (kx_sender x) n bips) /\
    rg_provers (sk_registry s') = {[p]} ∪ rg_provers (sk_registry s) /\
    rg_owners (sk_registry s') = <[kx_sender x := p]> (rg_owners (sk_registry s)) /\
    rg_deactivated (sk_registry s') = rg_deactivated (sk_registry s).
Proof.
  unfold k_create_prover. cbv zeta. intros H. sk_inv. subst. eexists. split; [lia|]. split; [lia|].
  split; [match goal with H : is_prover _ _ = false |- _ => unfold is_prover in H; apply bool_decide_eq_false in H; exact H end|].
  split; [eexists; reflexivity|]. repeat split.
Qed.

Lemma registry_changes K x c s s' evs : staking_run K x c s = Ok (s', evs) ->
  (sk_registry s' = sk_registry s) \/
  (exists p, rg_provers (sk_registry s') = rg_provers (sk_registry s) /\
     rg_owners (sk_registry s') = rg_owners (sk_registry s) /\
     (exists i, c = KFinishSlash p i) /\ forall q, q ∈ rg_deactivated (sk_registry s') <->
       (q ∈ rg_deactivated (sk_registry s) \/ (q = p /\ below_min p (sk_bank s')))) \/
  (exists p bips, c = KCreateProver bips /\ bips <= 10000 /\ default 0 (rg_owners (sk_registry s) !! kx_sender x) = 0 /\
    ~ p ∈ rg_provers (sk_registry s) /\ (exists n, p = ke_create2 K (kx_sender x) n bips) /\
    rg_provers (sk_registry s') = {[p]} ∪ rg_provers (sk_registry s) /\
    rg_owners (sk_registry s') = <[kx_sender x := p]> (rg_owners (sk_registry s)) /\
    rg_deactivated (sk_registry s') = rg_deactivated (sk_registry s)).
Proof.
  intros H. destruct c.
  1, 2, 3, 4, 12: apply core_kept in H; [|exact I]; apply core_eq in H as (_ & -> & _); auto.
  - apply request_slash_ok in H as (_ & _ & _ & _ & -> & _). auto.
  - apply cancel_slash_ok in H as (c & _ & _ & _ & _ & -> & _). auto.
  - right. left. apply finish_slash_registry in H as (H1 & H2 & H3). exists p. repeat (split; [assumption|]).
    split; [eauto|exact H3].
  - apply dispense_ok in H. cbv zeta in H. destruct H as (a & t & Hx & _ & _ & _ & _ & -> & _). auto.
  - cbn [staking_run] in H. unfold k_set_dispenser in H. sk_inv. subst. auto.
  - cbn [staking_run] in H. unfold k_update_rate in H. sk_inv. subst. auto.
  - right. right. apply create_prover_full in H as (p & H). exists p, bips. split; [reflexivity|exact H].
  - cbn [staking_run] in H. unfold k_transfer_ownership in H. sk_inv. subst. auto.
  - cbn [staking_run] in H. unfold k_renounce_ownership in H. sk_inv. subst. auto.
Qed.

(** The owners of provers: each owner has a registered prover, different owners have different ones. *)
Record owners_ok (s : staking) : Prop := {
  ow_registered : forall o p, rg_owners (sk_registry s) !! o = Some p -> p ∈ rg_provers (sk_registry s);
  ow_distinct : forall o o' p, rg_owners (sk_registry s) !! o = Some p -> rg_owners (sk_registry s) !! o' = Some p -> o = o';
  ow_all : forall p, p ∈ rg_provers (sk_registry s) -> exists o, rg_owners (sk_registry s) !! o = Some p
}.

Lemma owners_step K x c s s' evs :
  (forall p, p ∈ rg_provers (sk_registry s) -> p <> 0) ->
  staking_run K x c s = Ok (s', evs) -> owners_ok s -> owners_ok s'.
Proof.
  intros Hnz H [O1 O2 O3]. apply registry_changes in H as [E|[(p & Ep & Eo & _)|(p & bips & _ & _ & Hz & Hnew & _ & Ep & Eo & _)]].
  - split; rewrite ?E; assumption.
  - split; rewrite ?Ep, ?Eo; assumption.
  - assert (Hnone : rg_owners (sk_registry s) !! kx_sender x = None).
    { destruct (rg_owners (sk_registry s) !! kx_sender x) as [q|] eqn:E; [|reflexivity].
      cbn [default] in Hz. destruct (Hnz q (O1 _ _ E) Hz). }
    split; rewrite ?Ep, ?Eo.
    + intros o q. rewrite elem_of_union, elem_of_singleton. destruct (N.eq_dec o (kx_sender x)) as [->|Hne].
      * rewrite lookup_insert. intros E. injection E as <-. auto.
      * rewrite lookup_insert_ne by congruence. intros E. right. exact (O1 _ _ E).
    + intros o o' q. destruct (N.eq_dec o (kx_sender x)) as [->|Hne], (N.eq_dec o' (kx_sender x)) as [->|Hne'];
        rewrite ?lookup_insert, ?lookup_insert_ne by congruence; intros E1 E2.
      * reflexivity.
      * injection E1 as <-. destruct (Hnew (O1 _ _ E2)).
      * injection E2 as <-. destruct (Hnew (O1 _ _ E1)).
      * exact (O2 _ _ _ E1 E2).
    + intros q. rewrite elem_of_union, elem_of_singleton. intros [->|Hq].
      * exists (kx_sender x). apply lookup_insert.
      * destruct (O3 q Hq) as [o Ho]. exists o. rewrite lookup_insert_ne by congruence. exact Ho.
Qed.

Lemma owners_history K s log s' :
  stk_history K s log s' -> stk_inv K s -> Forall (by_outsider K) log -> owners_ok s -> owners_ok s'.
Proof.
  induction 1 as [s|s x c s1 evs log s' Hr Hh IH|s x c e log s' Hr Hh IH|s o t log s' Ht Hh IH]; intros Hinv Ho Hw; inversion Ho; subst.
  - exact Hw.
  - apply IH; [eapply inv_call; eassumption|assumption|]. eapply owners_step; [|eassumption|assumption].
    intros p Hp. apply (ki_provers K s Hinv p Hp).
  - auto.
  - apply IH; [apply inv_prove; [exact Hinv|]; apply (token_op_inv K s o t Hinv); assumption|assumption|]. destruct Hw as [O1 O2 O3]. split; assumption.
Qed.

Lemma initial_owners K prove owner governor pa dispenser s0 :
  staking_initialize K prove owner governor pa dispenser = Some s0 -> owners_ok s0.
Proof.
  unfold staking_initialize. destruct (forallb _ _); [|discriminate]. intros H. injection H as <-.
  split; cbn [sk_registry rg_owners rg_provers].
  - intros o p. rewrite lookup_empty. discriminate.
  - intros o o' p. rewrite lookup_empty. discriminate.
  - intros p Hp. now apply elem_of_empty in Hp.
Qed.

(** ** Requests *)

Lemma request_exact K x n s s' evs :
  stk_inv K s -> k_request_unstake K x n s = Ok (s', evs) ->
  let a := kx_sender x in let p := bound_to s a in
  exists i factor, evs = [EvUnstakeRequest a p n i] /\ n <> 0 /\ n <= stake_of (sk_bank s) a /\
    i = share_worth s p n /\
    factor = (if ep_factor (pool_of s p) =? 0 then 10 ^ 27 else ep_factor (pool_of s p)) /\
    claims_of s' a = claims_of s a ++ [UnstakeClaim i factor (kx_time x)] /\
    N.of_nat (length (claims_of s' a)) <= ke_max_requests K /\
    pool_of s' p = EscrowPool (ep_escrow (pool_of s p) + i) factor /\
    v_assets p (sk_bank s') + i = v_assets p (sk_bank s) /\
    (forall b, stake_of (sk_bank s') b + (if b =? a then n else 0) = stake_of (sk_bank s) b) /\
    (forall b, b <> a -> claims_of s' b = claims_of s b) /\ (forall b, bound_to s' b = bound_to s b) /\
    (forall q, q <> p -> pool_of s' q = pool_of s q) /\
    (forall q, q <> p -> q ∈ rg_provers (sk_registry s) -> v_assets q (sk_bank s') = v_assets q (sk_bank s)) /\
    bk_prove (sk_bank s') = bk_prove (sk_bank s) /\ bk_isupply (sk_bank s') = bk_isupply (sk_bank s).
Proof.
  intros Hinv H. pose proof H as Hraw. apply request_unstake_ok in H. cbv zeta in *.
  set (a := kx_sender x) in *. set (p := bound_to s a) in *.
  destruct H as (Hn & Hp & Hlen & _ & Hle & b2 & i & Hv & -> & ->).
  set (factor := if ep_factor (pool_of s p) =? 0 then slash_scalar else ep_factor (pool_of s p)) in *.
  pose proof (ki_bound K s Hinv a Hp) as Hreg. fold p in Hreg. destruct (ki_provers K s Hinv p Hreg) as (_ & Hps & Hpi).
  apply v_redeem_ok in Hv as (Htr & _ & Hi & _ & Hb1 & Hb2 & Hb3 & _ & _). cbn [bk_set_stake bk_iprove bk_prove bk_isupply bk_stakes] in *.
  apply transfer_ok in Htr as (_ & Hle2 & Htr).
  assert (Hprev : i = share_worth s p n).
  { unfold share_worth, redeemed. rewrite <- (ki_shares K s Hinv p). exact Hi. }
  exists i, factor. split; [reflexivity|]. split; [exact Hn|]. split; [exact Hle|]. split; [exact Hprev|]. split; [reflexivity|].
  assert (Hcl : forall b, claims_of (sk_set_claims a (claims_of s a ++ [UnstakeClaim i factor (kx_time x)])
           (sk_set_pool p (EscrowPool (ep_escrow (pool_of s p) + i) factor) (sk_set_bank b2 s))) b
         = if b =? a then claims_of s a ++ [UnstakeClaim i factor (kx_time x)] else claims_of s b).
  { intros b. rewrite claims_set. reflexivity. }
  assert (Hpo : forall q, pool_of (sk_set_claims a (claims_of s a ++ [UnstakeClaim i factor (kx_time x)])
           (sk_set_pool p (EscrowPool (ep_escrow (pool_of s p) + i) factor) (sk_set_bank b2 s))) q
         = if q =? p then EscrowPool (ep_escrow (pool_of s p) + i) factor else pool_of s q).
  { intros q. rewrite pool_claims, pool_set. reflexivity. }
  rewrite !Hcl, N.eqb_refl, Hpo, N.eqb_refl. cbn [sk_set_claims sk_set_pool sk_set_bank sk_bank].
  split; [reflexivity|]. split; [rewrite app_length; cbn [length]; lia|]. split; [reflexivity|].
  split.
  { unfold v_assets. rewrite Htr, N.eqb_refl. destruct (N.eqb_spec p (ke_self K)); [congruence|]. clear - Hle2. lia. }
  split.
  { intros b. unfold stake_of at 1. rewrite Hb3. destruct (N.eqb_spec b a) as [->|Hne].
    - rewrite lookup_insert. change (default 0 (Some (stake_of (sk_bank s) a - n))) with (stake_of (sk_bank s) a - n). clear - Hle. lia.
    - rewrite lookup_insert_ne by congruence. apply N.add_0_r. }
  split; [intros b Hb; rewrite Hcl; destruct (N.eqb_spec b a); [congruence|reflexivity]|].
  split; [reflexivity|].
  split; [intros q Hq; rewrite Hpo; destruct (N.eqb_spec q p); [congruence|reflexivity]|].
  split.
  { intros q Hq Hqr. destruct (ki_provers K s Hinv q Hqr) as (_ & Hqs & _). unfold v_assets. rewrite Htr.
    destruct (N.eqb_spec q p); [congruence|]. destruct (N.eqb_spec q (ke_self K)); [congruence|]. apply N.add_0_r. }
  split; [exact Hb1|exact Hb2].
Qed.

(** Never more open claims than allowed. *)
Lemma claims_bounded K s log s' a :
  stk_history K s log s' -> stk_inv K s -> Forall (by_outsider K) log ->
  N.of_nat (length (claims_of s a)) <= ke_max_requests K -> N.of_nat (length (claims_of s' a)) <= ke_max_requests K.
Proof.
  induction 1 as [s|s x c s1 evs log s' Hr Hh IH|s x c e log s' Hr Hh IH|s o t log s' Ht Hh IH]; intros Hinv Ho Hw; inversion Ho; subst.
  - exact Hw.
  - apply IH; [eapply inv_call; eassumption|assumption|].
    assert (Hq : quiet c \/ ~ quiet c) by (destruct c; cbn; tauto).
    destruct Hq as [Hq|Hq].
    + destruct (quiet_ok K x c s s1 evs Hq Hr) as (E & _). unfold claims_of in *. rewrite E. exact Hw.
    + destruct c; cbn [quiet] in Hq; try tauto; clear Hq; pose proof Hr as Hr'; cbn [staking_run] in Hr'.
      * apply stake_call_ok in Hr' as (t & _ & _ & Hs). apply stake_frame in Hs as (E & _). unfold claims_of in *. rewrite E. exact Hw.
      * apply permit_stake_ok in Hr' as (t1 & t & _ & _ & _ & Hs). apply stake_frame in Hs as (E & _). unfold claims_of in *. rewrite E. exact Hw.
      * apply request_exact in Hr'; [|exact Hinv]. cbv zeta in Hr'.
        destruct Hr' as (i & f & _ & _ & _ & _ & _ & _ & Hlen & _ & _ & _ & Hoth & _).
        destruct (N.eq_dec a (kx_sender x)) as [->|Hne]; [exact Hlen|rewrite (Hoth a Hne); exact Hw].
      * pose proof Hr' as Hr2. apply finish_unstake_ok in Hr2. cbv zeta in Hr2. destruct Hr2 as (Hb & _).
        apply finish_unstake_ok in Hr'. cbv zeta in Hr'. destruct Hr' as (_ & _ & _ & done & left & pool & b & _ & _ & _ & Hperm & E).
        assert (Hc : claims_of s1 a = if a =? staker then left else claims_of s a).
        { rewrite E. match goal with |- claims_of (if ?z then sk_set_bound ?k ?v ?S else ?S) a = _ =>
            replace (claims_of (if z then sk_set_bound k v S else S) a) with (claims_of S a) by (destruct z; reflexivity) end.
          rewrite claims_set. reflexivity. }
        rewrite Hc. destruct (N.eqb_spec a staker) as [->|]; [|exact Hw].
        apply Permutation_length in Hperm. rewrite app_length in Hperm. lia.
      * apply finish_slash_ok in Hr'. cbv zeta in Hr'. destruct Hr' as (c & d & b & _ & _ & _ & _ & _ & Hr').
        assert (E : claims_of s1 a = claims_of s a)
          by (destruct Hr' as [[_ ->]|(b1 & b2 & f & _ & _ & _ & _ & ->)]; reflexivity).
        rewrite E. exact Hw.
  - auto.
  - apply IH; [apply inv_prove; [exact Hinv|]; apply (token_op_inv K s o t Hinv); assumption|assumption|exact Hw].
Qed.
