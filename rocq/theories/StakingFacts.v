(** The invariant of the staking contract. *)
From Verif Require Export StakingBank.
From Coq Require Import Lia ZifyBool ZifyN ZifyNat.
Open Scope N_scope.

Definition unresolved (c : slash_claim) : bool := negb (sc_resolved c).

Record stk_inv (K : staking_env) (s : staking) : Prop := {
  ki_addresses : stk_addresses_ok K;
  ki_allow : allow_ok K (bk_prove (sk_bank s));
  ki_total : i_total_ok (sk_bank s);
  ki_escrow : tk_balance (bk_iprove (sk_bank s)) (ke_self K) = all_escrow s;
  ki_provers : forall p, p ∈ rg_provers (sk_registry s) -> p <> 0 /\ p <> ke_self K /\ p <> ke_iprove K;
  ki_bound : forall a, bound_to s a <> 0 -> bound_to s a ∈ rg_provers (sk_registry s);
  ki_unbound : forall a, bound_to s a = 0 -> stake_of (sk_bank s) a = 0 /\ claims_of s a = [];
  ki_shares : forall p, shares_of (sk_bank s) p = stakes_on s p;
  ki_stsupply : bk_stsupply (sk_bank s) = map_total (fun _ n => n) (bk_stakes (sk_bank s)) /\
                bk_stsupply (sk_bank s) < two256;
  ki_pending : forall p, pending_of s p = N.of_nat (length (List.filter unresolved (slashes_of s p))) /\
                N.of_nat (length (slashes_of s p)) <= two64;
  ki_claims : forall a c, c ∈ claims_of s a -> 0 < uc_factor c <= slash_scalar /\ uc_escrow c <= max_votes_supply;
  ki_pool : forall p, ep_factor (pool_of s p) <= slash_scalar
}.

Ltac sk_simpl :=
  cbn [sk_set_owner sk_set_bank sk_set_registry sk_set_dispensing sk_set_bound sk_set_claims sk_set_slashes
       sk_set_pool resolve_slash sk_owner sk_bank sk_registry sk_dispensing sk_bound sk_claims sk_slashes sk_pending sk_pools
       bk_set_prove bk_set_iprove bk_set_share bk_set_stake bk_prove bk_iprove bk_isupply bk_shares bk_stakes bk_stsupply
       rg_provers rg_deactivated rg_owners rg_count ep_escrow ep_factor uc_escrow uc_factor uc_time
       sc_amount sc_time sc_resolved dp_dispenser dp_rate dp_since dp_earned dp_distributed] in *.

(** ** Reading after writing *)

Lemma bound_set s a p x : bound_to (sk_set_bound a p s) x = if x =? a then p else bound_to s x.
Proof.
  unfold bound_to. sk_simpl. destruct (N.eqb_spec x a) as [->|];
    [now rewrite lookup_insert|now rewrite lookup_insert_ne by congruence].
Qed.
Lemma claims_set s a l x : claims_of (sk_set_claims a l s) x = if x =? a then l else claims_of s x.
Proof.
  unfold claims_of. sk_simpl. destruct (N.eqb_spec x a) as [->|];
    [now rewrite lookup_insert|now rewrite lookup_insert_ne by congruence].
Qed.
Lemma slashes_set s p l n x : slashes_of (sk_set_slashes p l n s) x = if x =? p then l else slashes_of s x.
Proof.
  unfold slashes_of. sk_simpl. destruct (N.eqb_spec x p) as [->|];
    [now rewrite lookup_insert|now rewrite lookup_insert_ne by congruence].
Qed.
Lemma pending_set s p l n x : pending_of (sk_set_slashes p l n s) x = if x =? p then n else pending_of s x.
Proof.
  unfold pending_of. sk_simpl. destruct (N.eqb_spec x p) as [->|];
    [now rewrite lookup_insert|now rewrite lookup_insert_ne by congruence].
Qed.
Lemma pool_set s p l x : pool_of (sk_set_pool p l s) x = if x =? p then l else pool_of s x.
Proof.
  unfold pool_of. sk_simpl. destruct (N.eqb_spec x p) as [->|];
    [now rewrite lookup_insert|now rewrite lookup_insert_ne by congruence].
Qed.
Lemma shares_set b b' p n x :
  bk_shares b' = <[p := n]> (bk_shares b) -> shares_of b' x = if x =? p then n else shares_of b x.
Proof.
  unfold shares_of. intros ->. destruct (N.eqb_spec x p) as [->|];
    [now rewrite lookup_insert|now rewrite lookup_insert_ne by congruence].
Qed.
Lemma stake_set b b' a n x :
  bk_stakes b' = <[a := n]> (bk_stakes b) -> stake_of b' x = if x =? a then n else stake_of b x.
Proof.
  unfold stake_of. intros ->. destruct (N.eqb_spec x a) as [->|];
    [now rewrite lookup_insert|now rewrite lookup_insert_ne by congruence].
Qed.

Lemma all_escrow_set s p pool :
  all_escrow (sk_set_pool p pool s) + ep_escrow (pool_of s p) = all_escrow s + ep_escrow pool.
Proof.
  unfold all_escrow. sk_simpl.
  pose proof (map_total_insert (fun _ q => ep_escrow q) (sk_pools s) p pool) as H.
  unfold old_value in H. unfold pool_of. destruct (sk_pools s !! p); cbn [default from_option id ep_escrow]; lia.
Qed.

Lemma escrow_le_all s p : ep_escrow (pool_of s p) <= all_escrow s.
Proof.
  unfold all_escrow, pool_of. pose proof (old_le_total (fun _ q => ep_escrow q) (sk_pools s) p) as H.
  unfold old_value in H. destruct (sk_pools s !! p); cbn [default from_option id ep_escrow]; lia.
Qed.

Definition stakes_sum (bound : gmap N N) (stakes : gmap N N) (p : N) : N :=
  map_total (fun a n => if default 0 (bound !! a) =? p then n else 0) stakes.

Lemma stakes_on_sum s p : stakes_on s p = stakes_sum (sk_bound s) (bk_stakes (sk_bank s)) p.
Proof. reflexivity. Qed.

Lemma stakes_sum_bind bound stakes a q p :
  default 0 (stakes !! a) = 0 -> stakes_sum (<[a := q]> bound) stakes p = stakes_sum bound stakes p.
Proof.
  intros H0. apply map_total_ext. intros k v Hv. destruct (decide (k = a)) as [->|].
  - rewrite Hv in H0. cbn [default from_option id] in H0. subst v. now destruct (_ =? _), (_ =? _).
  - now rewrite lookup_insert_ne by congruence.
Qed.

Lemma stakes_sum_set bound stakes a n p :
  stakes_sum bound (<[a := n]> stakes) p + (if default 0 (bound !! a) =? p then default 0 (stakes !! a) else 0)
  = stakes_sum bound stakes p + (if default 0 (bound !! a) =? p then n else 0).
Proof.
  unfold stakes_sum.
  pose proof (map_total_insert (fun a n => if default 0 (bound !! a) =? p then n else 0) stakes a n) as H.
  unfold old_value in H. cbn beta in H.
  destruct (stakes !! a); cbn [default from_option id]; destruct (_ =? _); lia.
Qed.

Lemma stake_le_sum bound stakes a :
  default 0 (stakes !! a) <= stakes_sum bound stakes (default 0 (bound !! a)).
Proof.
  unfold stakes_sum.
  pose proof (old_le_total (fun b n => if default 0 (bound !! b) =? default 0 (bound !! a) then n else 0) stakes a) as H.
  unfold old_value in H. rewrite N.eqb_refl in H. destruct (stakes !! a); cbn [default from_option id] in *; lia.
Qed.

Lemma stake_total_set stakes a n :
  map_total (fun _ n => n) (<[a := n]> stakes) + default 0 (stakes !! a) = map_total (fun _ n => n) stakes + n.
Proof.
  pose proof (map_total_insert (fun _ n => n) stakes a n) as H. unfold old_value in H.
  destruct (stakes !! a); cbn [default from_option id]; lia.
Qed.

(** ** The initial state *)

Lemma empty_pools : map_total (fun _ q => ep_escrow q) (∅ : gmap N escrow_pool) = 0.
Proof. reflexivity. Qed.

Lemma initial_inv K prove owner governor prove_address dispenser s0 :
  stk_addresses_ok K ->
  (forall a, tk_allowance prove (ke_self K) a = 0 /\ tk_allowance prove (ke_iprove K) a = 0) ->
  staking_initialize K prove owner governor prove_address dispenser = Some s0 -> stk_inv K s0.
Proof.
  intros HK Ha. unfold staking_initialize. destruct (forallb _ _); [|discriminate]. intros [= <-].
  pose proof HK as [Hs Hi Hd Hv Hc].
  split; sk_simpl; try (intros; reflexivity).
  - exact HK.
  - intros a. rewrite !allowance_approve. destruct (Ha a) as [H1 H2].
    rewrite N.eqb_refl. cbn [andb]. split.
    + destruct (a =? ke_iprove K); [reflexivity|exact H1].
    + destruct (N.eqb_spec (ke_iprove K) (ke_self K)); [congruence|exact H2].
  - split; [reflexivity|]. apply N.le_0_l.
  - intros p Hp. now apply not_elem_of_empty in Hp.
  - intros a Ha'. now destruct Ha'.
  - intros a _. split; reflexivity.
  - split; reflexivity.
  - intros p. split; [reflexivity|]. apply N.le_0_l.
  - intros a c Hc'. now apply elem_of_nil in Hc'.
  - intros p. apply N.le_0_l.
Qed.

(** ** Calls that leave the pools and claims alone *)

(** The $PROVE token changes, its allowances stay in order. *)
Lemma inv_prove K s t :
  stk_inv K s -> allow_ok K t -> stk_inv K (sk_set_bank (bk_set_prove t (sk_bank s)) s).
Proof. intros [] Ht. split; sk_simpl; assumption. Qed.

Lemma bound_inv K s a : stk_inv K s -> bound_to s a <> 0 ->
  bound_to s a ∈ rg_provers (sk_registry s).
Proof. intros H. apply ki_bound with (1 := H). Qed.

Lemma is_prover_in s p : is_prover s p = true -> p ∈ rg_provers (sk_registry s).
Proof. unfold is_prover. intros H. now apply bool_decide_eq_true in H. Qed.

Lemma st_mint_ok a n b b' : st_mint a n b = Ok b' ->
  a <> 0 /\ bk_stsupply b + n < two256 /\ b' = bk_set_stake a (stake_of b a + n) (bk_stsupply b + n) b.
Proof. unfold st_mint. intros H. sk_inv. subst. split; [lia|]. auto. Qed.

Lemma st_burn_ok a n b b' : st_burn a n b = Ok b' ->
  a <> 0 /\ n <= stake_of b a /\ b' = bk_set_stake a (stake_of b a - n) (bk_stsupply b - n) b.
Proof. unfold st_burn. intros H. sk_inv. subst. split; [lia|]. split; [lia|reflexivity]. Qed.

(** What [_stake] does. *)
Lemma stake_for_ok K a p n s s' evs : stake_for K a p n s = Ok (s', evs) ->
  n <> 0 /\ ke_min_stake K <= n /\ is_deactivated s p = false /\ pending_of s p = 0 /\
  (bound_to s a = 0 \/ bound_to s a = p) /\
  exists iprove sh b1 b2,
    i_deposit K (ke_self K) (ke_self K) n (sk_bank s) = Ok (b1, iprove) /\ iprove <> 0 /\
    v_deposit K p iprove b1 = Ok (b2, sh) /\ sh <> 0 /\
    a <> 0 /\ bk_stsupply b2 + sh < two256 /\
    s' = sk_set_bank (bk_set_stake a (stake_of b2 a + sh) (bk_stsupply b2 + sh) b2)
           (if bound_to s a =? 0 then sk_set_bound a p s else s) /\
    evs = [EvStake a p n iprove sh].
Proof.
  unfold stake_for, no_slash_requests. intros H. sk_inv.
  subst.
  match goal with H : st_mint _ _ _ = Ok _ |- _ => apply st_mint_ok in H as (Ha & Hlt & ->) end.
  split; [lia|]. split; [lia|]. split; [assumption|].
  split; [match goal with H : (0 <? _) = false |- _ => apply N.ltb_ge in H; lia end|]. split; [lia|].
  do 4 eexists. split; [|split; [|split; [eassumption|split; [|split; [exact Ha|split; [exact Hlt|split; reflexivity]]]]]].
  - match goal with H : i_deposit _ _ _ _ _ = Ok _ |- _ => rewrite <- H end. now destruct (bound_to s a =? 0).
  - lia.
  - lia.
Qed.

(** The tokens after a stake. *)
Lemma stake_bank K p n b b1 b2 iprove sh :
  stk_addresses_ok K -> p <> 0 -> p <> ke_self K -> p <> ke_iprove K ->
  allow_ok K (bk_prove b) -> i_total_ok b ->
  i_deposit K (ke_self K) (ke_self K) n b = Ok (b1, iprove) -> v_deposit K p iprove b1 = Ok (b2, sh) ->
  allow_ok K (bk_prove b2) /\ i_total_ok b2 /\
  (forall x, tk_balance (bk_iprove b2) x = tk_balance (bk_iprove b) x + if x =? p then iprove else 0) /\
  bk_isupply b2 = bk_isupply b + iprove /\
  (forall x, shares_of b2 x = shares_of b x + if x =? p then sh else 0) /\
  bk_stakes b2 = bk_stakes b /\ bk_stsupply b2 = bk_stsupply b /\
  i_price K b b2 /\ v_price p b b2 /\ i_assets K b2 = i_assets K b + n /\
  iprove = n * (bk_isupply b + 1) / (i_assets K b + 1) /\
  sh = iprove * (shares_of b p + 1) / (v_assets p b + 1).
Proof.
  intros [Hs Hi Hd Hv _] Hp0 Hps Hpi Hal Ht H1 H2.
  apply i_deposit_ok in H1 as (t & Htr & <- & _ & Hsh & Hsup & Hb1 & Ht1 & Hs1 & Hs2 & Hs3).
  apply v_deposit_ok in H2 as (Htv & Hsv & Hsh2 & Hp2 & Hsup2 & Hst2 & Hss2 & Ht2).
  destruct (transfer_from_allow K _ _ _ _ _ _ Hd Hal Htr) as (Hal1 & _ & _).
  apply transfer_from_ok in Htr as (_ & _ & _ & _ & Hbp).
  pose proof Htv as Htv'. apply transfer_ok in Htv' as (_ & Hle & Hbv).
  assert (Hassets : i_assets K b2 = i_assets K b + n).
  { unfold i_assets. rewrite Hp2, Hbp. destruct (N.eqb_spec (ke_iprove K) (ke_self K)); [congruence|].
    rewrite N.eqb_refl. reflexivity. }
  assert (Hshares : forall x, shares_of b1 x = shares_of b x) by (intros x; unfold shares_of; now rewrite Hs1).
  assert (Hva : v_assets p b1 = v_assets p b).
  { unfold v_assets. rewrite Hb1. destruct (N.eqb_spec p (ke_self K)); [congruence|]. lia. }
  rewrite Hshares, Hva in Hsv.
  assert (Hbal : forall x, tk_balance (bk_iprove b2) x = tk_balance (bk_iprove b) x + if x =? p then iprove else 0).
  { intros x. rewrite Hbv, !Hb1. destruct (N.eqb_spec x (ke_self K)), (N.eqb_spec x p); subst; try congruence; lia. }
  assert (Hshx : forall x, shares_of b2 x = shares_of b x + if x =? p then sh else 0).
  { intros x. rewrite (shares_set _ _ _ _ x Hsh2). rewrite !Hshares. destruct (N.eqb_spec x p) as [->|]; lia. }
  split; [rewrite Hp2; exact Hal1|]. split; [auto|]. split; [exact Hbal|]. split; [congruence|].
  split; [exact Hshx|]. split; [congruence|]. split; [congruence|].
  split; [|split; [|auto]].
  - unfold i_price. rewrite Hassets, Hsup2, Hsup, Hsh. apply price_deposit.
  - unfold v_price. rewrite Hshx, N.eqb_refl. unfold v_assets. rewrite Hbal, N.eqb_refl. rewrite Hsv.
    apply price_deposit.
Qed.

Lemma inv_stake_for K a p n s s' evs :
  stk_inv K s -> p ∈ rg_provers (sk_registry s) -> stake_for K a p n s = Ok (s', evs) -> stk_inv K s'.
Proof.
  intros Hinv Hp H. pose proof Hinv as [HK Hal Ht He Hpr Hb Hu Hsh [Hst1 Hst2] Hpe Hc Hpo].
  destruct (Hpr p Hp) as (Hp0 & Hps & Hpi).
  apply stake_for_ok in H as (_ & _ & _ & _ & Hbd & iprove & sh & b1 & b2 & H1 & _ & H2 & _ & Ha0 & Hlt & -> & _).
  destruct (stake_bank K p n _ b1 b2 iprove sh HK Hp0 Hps Hpi Hal Ht H1 H2)
    as (Hal2 & Ht2 & Hbal & Hsup & Hshx & Hstk & Hsts & _ & _ & _ & _ & _).
  set (s1 := if bound_to s a =? 0 then sk_set_bound a p s else s).
  assert (Hbx : forall x, bound_to s1 x = if x =? a then p else bound_to s x).
  { intros x. unfold s1. destruct (N.eqb_spec (bound_to s a) 0) as [E|E]; [apply bound_set|].
    destruct (N.eqb_spec x a) as [->|]; [|reflexivity]. destruct Hbd; congruence. }
  assert (Hrest : sk_registry s1 = sk_registry s /\ sk_claims s1 = sk_claims s /\ sk_slashes s1 = sk_slashes s /\
     sk_pending s1 = sk_pending s /\ sk_pools s1 = sk_pools s)
    by (unfold s1; destruct (bound_to s a =? 0); repeat split).
  destruct Hrest as (R1 & R2 & R3 & R4 & R5).
  assert (Hsame : forall q, stakes_sum (sk_bound s1) (bk_stakes (sk_bank s)) q = stakes_on s q).
  { intros q. unfold s1. rewrite stakes_on_sum. destruct (N.eqb_spec (bound_to s a) 0) as [E|E]; [|reflexivity].
    sk_simpl. apply stakes_sum_bind. apply (Hu a E). }
  split; sk_simpl.
  - exact HK.
  - exact Hal2.
  - exact Ht2.
  - unfold all_escrow. sk_simpl. rewrite R5, Hbal. destruct (N.eqb_spec (ke_self K) p); [congruence|].
    rewrite N.add_0_r. exact He.
  - rewrite R1. exact Hpr.
  - intros x Hx. rewrite R1. change (bound_to s1 x <> 0) in Hx.
    change (bound_to s1 x ∈ rg_provers (sk_registry s)). rewrite Hbx in *.
    destruct (x =? a); [exact Hp|apply Hb; exact Hx].
  - intros x Hx. change (bound_to s1 x = 0) in Hx. rewrite Hbx in Hx.
    rewrite (stake_set b2 _ a (stake_of b2 a + sh) x) by reflexivity.
    destruct (N.eqb_spec x a); [congruence|]. destruct (Hu x Hx) as [U1 U2]. split.
    + unfold stake_of in *. rewrite Hstk. exact U1.
    + unfold claims_of in *. sk_simpl. rewrite R2. exact U2.
  - intros q. rewrite stakes_on_sum. sk_simpl.
    change (shares_of b2 q = stakes_sum (sk_bound s1) (<[a:=stake_of b2 a + sh]> (bk_stakes b2)) q).
    pose proof (stakes_sum_set (sk_bound s1) (bk_stakes b2) a (stake_of b2 a + sh) q) as E.
    assert (default 0 (sk_bound s1 !! a) = p) as Hba by (pose proof (Hbx a) as E'; rewrite N.eqb_refl in E'; exact E').
    rewrite Hba in E. rewrite Hstk in E at 3. rewrite Hsame in E. rewrite Hshx. rewrite (Hsh q). unfold stake_of in *.
    rewrite (N.eqb_sym q p). destruct (p =? q); lia.
  - pose proof (stake_total_set (bk_stakes b2) a (stake_of b2 a + sh)) as E.
    split; [|exact Hlt]. unfold stake_of in *. rewrite Hstk in *. rewrite Hsts, Hst1. lia.
  - unfold pending_of, slashes_of. sk_simpl. rewrite R3, R4. exact Hpe.
  - unfold claims_of. sk_simpl. rewrite R2. exact Hc.
  - unfold pool_of. sk_simpl. rewrite R5. exact Hpo.
Qed.

Lemma stake_token K x n s t :
  stk_inv K s ->
  tk_transfer_from (bk_prove (sk_bank s)) (ke_self K) x (ke_self K) n = Ok t ->
  stk_inv K (sk_set_bank (bk_set_prove t (sk_bank s)) s).
Proof.
  intros H Ht. apply inv_prove; [exact H|].
  exact (proj1 (transfer_from_allow K _ _ _ _ _ _ (sao_distinct K (ki_addresses K s H)) (ki_allow K s H) Ht)).
Qed.

(** ** Requesting to unstake *)

Lemma request_unstake_ok K x n s s' evs : k_request_unstake K x n s = Ok (s', evs) ->
  let a := kx_sender x in let p := bound_to s a in
  n <> 0 /\ p <> 0 /\ N.of_nat (length (claims_of s a)) < ke_max_requests K /\ pending_of s p = 0 /\
  n <= stake_of (sk_bank s) a /\
  exists b2 escrowed,
    v_redeem K p n (bk_set_stake a (stake_of (sk_bank s) a - n) (bk_stsupply (sk_bank s) - n) (sk_bank s))
      = Ok (b2, escrowed) /\
    let factor := if ep_factor (pool_of s p) =? 0 then slash_scalar else ep_factor (pool_of s p) in
    s' = sk_set_claims a (claims_of s a ++ [UnstakeClaim escrowed factor (kx_time x)])
           (sk_set_pool p (EscrowPool (ep_escrow (pool_of s p) + escrowed) factor) (sk_set_bank b2 s)) /\
    evs = [EvUnstakeRequest a p n escrowed].
Proof.
  unfold k_request_unstake, no_slash_requests. cbv zeta. intros H. sk_inv. subst.
  match goal with H : st_burn _ _ _ = Ok _ |- _ => apply st_burn_ok in H as (Ha & Hle & ->) end.
  split; [lia|]. split; [lia|]. split; [lia|].
  split; [match goal with H : (0 <? _) = false |- _ => apply N.ltb_ge in H; lia end|]. split; [lia|].
  do 2 eexists. split; [eassumption|]. split; reflexivity.
Qed.

(** The tokens after an unstake request. *)
Lemma request_bank K p n b b2 escrowed :
  stk_addresses_ok K -> p <> ke_self K -> i_total_ok b -> v_redeem K p n b = Ok (b2, escrowed) ->
  i_total_ok b2 /\ bk_prove b2 = bk_prove b /\
  (forall x, tk_balance (bk_iprove b2) x
     = if x =? p then tk_balance (bk_iprove b) x - escrowed
       else tk_balance (bk_iprove b) x + if x =? ke_self K then escrowed else 0) /\
  escrowed <= v_assets p b /\ bk_isupply b2 = bk_isupply b /\
  (forall x, shares_of b2 x = shares_of b x - if x =? p then n else 0) /\ n <= shares_of b p /\
  bk_stakes b2 = bk_stakes b /\ bk_stsupply b2 = bk_stsupply b /\ v_price p b b2 /\
  escrowed = n * (v_assets p b + 1) / (shares_of b p + 1).
Proof.
  intros [Hs Hi Hd Hv _] Hps Ht H.
  apply v_redeem_ok in H as (Htr & Hle & Ha & Hsh & Hp & Hsup & Hst & Hss & Ht2).
  apply transfer_ok in Htr as (_ & Hle2 & Hb).
  assert (Hbal : forall x, tk_balance (bk_iprove b2) x
     = if x =? p then tk_balance (bk_iprove b) x - escrowed
       else tk_balance (bk_iprove b) x + if x =? ke_self K then escrowed else 0).
  { intros x. rewrite Hb. destruct (N.eqb_spec x p), (N.eqb_spec x (ke_self K)); subst; try congruence; lia. }
  assert (Hshx : forall x, shares_of b2 x = shares_of b x - if x =? p then n else 0).
  { intros x. rewrite (shares_set _ _ _ _ x Hsh). destruct (N.eqb_spec x p) as [->|]; lia. }
  split; [auto|]. split; [exact Hp|]. split; [exact Hbal|]. split; [exact Hle2|]. split; [exact Hsup|].
  split; [exact Hshx|]. split; [exact Hle|]. split; [exact Hst|]. split; [exact Hss|]. split; [|exact Ha].
  unfold v_price. rewrite Hshx, N.eqb_refl. unfold v_assets at 2. rewrite Hbal, N.eqb_refl.
  rewrite Ha. apply price_redeem; [exact Hle|]. apply redeem_le_assets. exact Hle.
Qed.

Lemma inv_request_unstake K x n s s' evs :
  stk_inv K s -> k_request_unstake K x n s = Ok (s', evs) -> stk_inv K s'.
Proof.
  intros Hinv H. pose proof Hinv as [HK Hal Ht He Hpr Hb Hu Hsh [Hst1 Hst2] Hpe Hc Hpo].
  apply request_unstake_ok in H. cbv zeta in H. set (a := kx_sender x) in *. set (p := bound_to s a) in *.
  destruct H as (_ & Hp & _ & _ & Hn & b2 & escrowed & Hv & -> & _).
  destruct (Hpr p (Hb a Hp)) as (Hp0 & Hps & Hpi).
  destruct (request_bank K p n (bk_set_stake a (stake_of (sk_bank s) a - n) (bk_stsupply (sk_bank s) - n) (sk_bank s)) b2 escrowed HK Hps Ht Hv)
    as (Ht2 & Hpv & Hbal & Hle & Hsup & Hshx & Hnp & Hstk & Hsts & _ & _).
  split; sk_simpl.
  - exact HK.
  - rewrite Hpv. exact Hal.
  - exact Ht2.
  - pose proof (all_escrow_set (sk_set_bank b2 s) p
      (EscrowPool (ep_escrow (pool_of s p) + escrowed)
        (if ep_factor (pool_of s p) =? 0 then slash_scalar else ep_factor (pool_of s p)))) as E. sk_simpl.
    change (pool_of (sk_set_bank b2 s) p) with (pool_of s p) in E.
    change (all_escrow (sk_set_bank b2 s)) with (all_escrow s) in E.
    rewrite Hbal. destruct (N.eqb_spec (ke_self K) p); [congruence|]. rewrite N.eqb_refl.
    unfold all_escrow in *. sk_simpl. lia.
  - exact Hpr.
  - exact Hb.
  - intros y Hy. change (bound_to s y = 0) in Hy. destruct (Hu y Hy) as [U1 U2].
    rewrite claims_set. destruct (N.eqb_spec y a) as [->|Hya]; [fold p in Hy; congruence|].
    split; [|exact U2]. unfold stake_of in *. rewrite Hstk. rewrite lookup_insert_ne by congruence. exact U1.
  - intros q. rewrite stakes_on_sum. sk_simpl. rewrite Hstk.
    pose proof (stakes_sum_set (sk_bound s) (bk_stakes (sk_bank s)) a (stake_of (sk_bank s) a - n) q) as E.
    change (default 0 (sk_bound s !! a)) with p in E. rewrite <- stakes_on_sum in E.
    rewrite Hshx. change (shares_of (bk_set_stake _ _ _ _) q) with (shares_of (sk_bank s) q).
    rewrite (Hsh q). unfold stake_of in *. rewrite (N.eqb_sym q p). destruct (N.eqb_spec p q) as [Hpq|Hpq]; [|lia]. rewrite <- Hpq in *.
    pose proof (stake_le_sum (sk_bound s) (bk_stakes (sk_bank s)) a) as L.
    change (default 0 (sk_bound s !! a)) with p in L. rewrite <- stakes_on_sum in L. lia.
  - rewrite Hsts, Hstk. pose proof (stake_total_set (bk_stakes (sk_bank s)) a (stake_of (sk_bank s) a - n)) as E.
    unfold stake_of in *. rewrite Hst1 in *. split; lia.
  - exact Hpe.
  - intros y c. rewrite claims_set. destruct (N.eqb_spec y a) as [->|]; [|apply Hc].
    rewrite elem_of_app, elem_of_list_singleton. intros [H| ->]; [now apply (Hc a)|]. sk_simpl.
    assert (Hf : ep_factor (pool_of s p) <= slash_scalar) by apply Hpo.
    assert (0 < slash_scalar) by reflexivity. split; [destruct (N.eqb_spec (ep_factor (pool_of s p)) 0); lia|].
    destruct Ht as [Ht Htm]. pose proof (balance_le_total (bk_iprove (sk_bank s)) p) as Hbt.
    unfold v_assets in Hle. sk_simpl. lia.
  - intros q. change (ep_factor (pool_of (sk_set_pool p (EscrowPool (ep_escrow (pool_of s p) + escrowed)
        (if ep_factor (pool_of s p) =? 0 then slash_scalar else ep_factor (pool_of s p))) (sk_set_bank b2 s)) q) <= slash_scalar).
    rewrite pool_set. destruct (q =? p); [|apply Hpo]. sk_simpl.
    destruct (_ =? 0); [reflexivity|apply Hpo].
Qed.
