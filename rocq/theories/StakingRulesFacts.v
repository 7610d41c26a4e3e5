(** The contract follows the rules, and accepts what they allow. *)
From Verif Require Export StakingViews StakingRules.
From Coq Require Import Lia ZifyBool ZifyN ZifyNat.
Open Scope N_scope.

Ltac pic :=
  cbn [picture_of with_prove with_iprove with_stakes with_registry with_settings with_bound with_claims with_slashes
       with_pools pc_owner pc_prove pc_allowed pc_iprove pc_isupply pc_shares pc_stprove pc_stsupply pc_provers
       pc_deactivated pc_prover_of pc_count pc_dispensing pc_bound pc_claims pc_slashes pc_pools] in *.
Ltac cases := unfold moved, plus, minus, put; repeat match goal with |- context [?a =? ?b] => destruct (N.eqb_spec a b) end;
  subst; try congruence; try lia.

Lemma settled_iff K s p : stk_inv K s -> (settled (picture_of s) p <-> pending_of s p = 0).
Proof.
  intros Hinv. pose proof (pending_iff K s p Hinv) as Hp. unfold settled. pic. fold (slashes_of s p). split.
  - intros H. destruct (N.eq_dec (pending_of s p) 0) as [E|E]; [exact E|]. exfalso.
    assert (Hlt : 0 < pending_of s p) by lia. apply Hp in Hlt as (c & Hc & Hr). rewrite (H c Hc) in Hr. discriminate.
  - intros E c Hc. destruct (sc_resolved c) eqn:Hr; [reflexivity|]. exfalso.
    assert (0 < pending_of s p); [|lia]. apply Hp. exists c. auto.
Qed.

Lemma spent_allowance t owner spender n t' :
  tk_spend t owner spender n = Ok t' ->
  (tk_allowance t owner spender = 2 ^ 256 - 1 \/ n <= tk_allowance t owner spender) /\
  forall a b, tk_allowance t' a b = spent owner spender n (tk_allowance t) a b.
Proof.
  unfold tk_spend, spent. change u256_max with (2 ^ 256 - 1). destruct (N.eqb_spec (tk_allowance t owner spender) (2 ^ 256 - 1)) as [E|E].
  - intros [= <-]. split; [now left|]. intros a b. destruct (N.eqb_spec a owner) as [->|]; [|reflexivity].
    destruct (N.eqb_spec b spender) as [->|]; [|reflexivity]. rewrite E. reflexivity.
  - destruct (N.ltb_spec (tk_allowance t owner spender) n); [discriminate|]. intros [= <-]. split; [now right|].
    intros a b. rewrite allowance_approve. destruct (N.eqb_spec a owner) as [->|]; [|reflexivity].
    destruct (N.eqb_spec b spender) as [->|]; [|reflexivity]. cbn [andb].
    destruct (N.eqb_spec (tk_allowance t owner spender) (2 ^ 256 - 1)); [congruence|reflexivity].
Qed.

Lemma transfer_from_spent t spender from to n t' :
  tk_transfer_from t spender from to n = Ok t' ->
  from <> 0 /\
  (tk_allowance t from spender = 2 ^ 256 - 1 \/ n <= tk_allowance t from spender) /\
  n <= tk_balance t from /\
  (forall a b, tk_allowance t' a b = spent from spender n (tk_allowance t) a b) /\
  (forall a, tk_balance t' a = (if a =? from then tk_balance t a - n else tk_balance t a) + if a =? to then n else 0).
Proof.
  intros H. pose proof H as H'. apply transfer_from_ok in H' as (Hle & _ & _ & _ & Hb). unfold tk_transfer_from in H.
  destruct (tk_spend t from spender n) as [t1|] eqn:Hs; [|discriminate]. apply spent_allowance in Hs as [Hm Hs].
  split; [unfold tk_transfer in H; destruct (N.eqb_spec from 0); [discriminate|assumption]|].
  split; [exact Hm|]. split; [exact Hle|]. split; [|exact Hb]. apply transfer_ok in H as (Ha & _).
  intros a b. rewrite <- Hs. unfold tk_allowance. now rewrite Ha.
Qed.

(** ** Staking *)

Lemma stake_for_rule K a p n s t s' evs :
  stk_inv K s -> is_prover s p = true -> outside K a -> allow_ok K t ->
  n <= tk_balance (bk_prove (sk_bank s)) a ->
  (forall y, tk_balance t y = (if y =? a then tk_balance (bk_prove (sk_bank s)) y - n else tk_balance (bk_prove (sk_bank s)) y)
     + if y =? ke_self K then n else 0) ->
  stake_for K a p n (sk_set_bank (bk_set_prove t (sk_bank s)) s) = Ok (s', evs) ->
  can_stake K (picture_of s) a p n /\ evs = [stake_event K (picture_of s) a p n] /\
  alike (after_stake K (picture_of s) a p n (tk_allowance t)) (picture_of s').
Proof.
  intros Hinv Hp [Ha1 Ha2] Hal Hn Hbal H. pose proof (sao_distinct K (ki_addresses K s Hinv)) as Hd.
  pose proof (is_prover_in s p Hp) as Hpin. destruct (ki_provers K s Hinv p Hpin) as (Hp0 & Hps & Hpi).
  apply stake_for_ok in H as (Hn0 & Hmin & Hact & Hpend & Hbound & iprove & sh & b1 & b2 & Hd1 & Hi & Hd2 & Hsh & Ha0 & Hlt & -> & ->).
  change (bound_to (sk_set_bank (bk_set_prove t (sk_bank s)) s) a) with (bound_to s a) in *.
  change (is_deactivated (sk_set_bank (bk_set_prove t (sk_bank s)) s) p) with (is_deactivated s p) in Hact.
  change (pending_of (sk_set_bank (bk_set_prove t (sk_bank s)) s) p) with (pending_of s p) in Hpend.
  sk_simpl. pose proof Hd1 as Hd1'.
  apply i_deposit_ok in Hd1 as (t1 & Ht1 & Hb1 & _ & Hish & Hisup & Hibal & _ & Hsame). sk_simpl.
  apply v_deposit_ok in Hd2 as (Htr & Hvsh & Hvs & Hb2 & Hvsup & Hst & Hsts & _).
  assert (Hti : i_assets K (bk_set_prove t (sk_bank s)) = i_assets K (sk_bank s)).
  { unfold i_assets. cbn [bk_set_prove bk_prove]. rewrite Hbal. destruct (N.eqb_spec (ke_iprove K) a); [congruence|].
    destruct (N.eqb_spec (ke_iprove K) (ke_self K)); [congruence|]. apply N.add_0_r. }
  rewrite Hti in Hish. change (bk_isupply (bk_set_prove t (sk_bank s))) with (bk_isupply (sk_bank s)) in Hish.
  assert (Ei : iprove = issued n (vault K (picture_of s)) (pc_isupply (picture_of s))) by exact Hish.
  assert (Es : sh = issued iprove (pc_iprove (picture_of s) p) (pc_shares (picture_of s) p)).
  { rewrite Hvsh. unfold issued, v_assets. rewrite Hibal. destruct (N.eqb_spec p (ke_self K)); [congruence|].
    rewrite N.add_0_r. unfold shares_of. destruct Hsame as (-> & _). reflexivity. }
  rewrite <- Ei, <- Es || idtac. unfold after_stake, stake_event. rewrite <- Ei, <- Es.
  assert (Hmax : bk_isupply (sk_bank s) + iprove < 2 ^ 208).
  { unfold i_deposit, i_preview_deposit, i_mint in Hd1'. sk_inv. subst. cbn [bk_set_prove bk_isupply] in *.
    match goal with H : (_ <=? max_votes_supply) = true |- _ => apply N.leb_le in H; unfold max_votes_supply in H end.
    rewrite Ei. unfold i_assets in Hti. change (2 ^ 208) with (2 ^ 208 - 1 + 1). unfold i_assets in *. pic. rewrite Hti in *. lia. }
  destruct Hsame as (Hs1 & Hs2 & Hs3).
  split; [|split; [reflexivity|]].
  - split; rewrite <- ?Ei, <- ?Es; pic.
    + exact Hp.
    + exact Hact.
    + apply (settled_iff K s p Hinv). exact Hpend.
    + exact Hbound.
    + exact Ha0.
    + exact Hmin.
    + exact Hn.
    + exact Hi.
    + exact Hmax.
    + exact Hsh.
    + rewrite Hsts, Hs3 in Hlt. exact Hlt.
  - apply transfer_from_ok in Ht1 as (_ & _ & _ & Hsame1 & Hbal1). apply transfer_ok in Htr as (_ & _ & Htr).
    rewrite (proj1 (Hal (ke_iprove K))) in Hsame1. rewrite N.eqb_refl in Hsame1. specialize (Hsame1 eq_refl).
    split; pic; sk_simpl.
    + now destruct (bound_to s a =? 0).
    + intros y. rewrite Hb2, Hb1, Hbal1, Hbal. cases.
    + intros o y. unfold tk_allowance. rewrite Hb2, Hb1, Hsame1. reflexivity.
    + intros y. rewrite Htr, Hibal. cases.
    + rewrite Hvsup, Hisup. reflexivity.
    + intros y. rewrite Hvs. unfold plus. destruct (N.eqb_spec y p) as [->|Hy].
      * rewrite lookup_insert. cbn [default from_option id]. unfold shares_of. rewrite Hs1. reflexivity.
      * rewrite lookup_insert_ne by congruence. now rewrite Hs1.
    + intros y. unfold plus. destruct (N.eqb_spec y a) as [->|Hy].
      * rewrite lookup_insert. cbn [default from_option id]. unfold stake_of. rewrite Hst, Hs2. reflexivity.
      * rewrite lookup_insert_ne by congruence. now rewrite Hst, Hs2.
    + rewrite Hsts, Hs3. reflexivity.
    + intros y. now destruct (bound_to s a =? 0).
    + intros y. now destruct (bound_to s a =? 0).
    + intros y. now destruct (bound_to s a =? 0).
    + now destruct (bound_to s a =? 0).
    + now destruct (bound_to s a =? 0).
    + intros y. unfold put. destruct (N.eqb_spec (bound_to s a) 0) as [E|E]; sk_simpl.
      * destruct (N.eqb_spec y a) as [->|Hy]; [now rewrite lookup_insert|now rewrite lookup_insert_ne by congruence].
      * destruct (N.eqb_spec y a) as [->|Hy]; [|reflexivity]. destruct Hbound as [?|?]; [congruence|]. symmetry. assumption.
    + intros y. now destruct (bound_to s a =? 0).
    + intros y. now destruct (bound_to s a =? 0).
    + intros y. now destruct (bound_to s a =? 0).
Qed.

Lemma alike_allowed K v a p n f g w :
  (forall x y, f x y = g x y) -> alike (after_stake K v a p n f) w -> alike (after_stake K v a p n g) w.
Proof.
  intros E [H1 H2 H3 H4 H5 H6 H7 H8 H9 H10 H11 H12 H13 H14 H15 H16 H17]. split; try assumption.
  intros x y. rewrite <- H3. unfold after_stake. pic. symmetry. apply E.
Qed.

Lemma stake_rule K x p n s s' evs :
  stk_inv K s -> outside K (kx_sender x) -> k_stake K x p n s = Ok (s', evs) ->
  exists w, rule K x (picture_of s) (KStake p n) w evs /\ alike w (picture_of s').
Proof.
  intros Hinv Ho H. unfold k_stake in H. sk_inv.
  match goal with H : tk_transfer_from _ _ _ _ _ = Ok ?t |- _ => rename H into Ht; rename t into t1 end.
  pose proof (proj1 (transfer_from_allow K _ _ _ _ _ _ (sao_distinct K (ki_addresses K s Hinv)) (ki_allow K s Hinv) Ht)) as Hal.
  apply transfer_from_spent in Ht as (Hx & Hm & Hle & Hsp & Hb).
  match goal with H : is_prover s p = true |- _ => rename H into Hp end.
  destruct (stake_for_rule K (kx_sender x) p n s t1 s' evs Hinv Hp Ho Hal Hle Hb H) as (Hc & -> & Hw).
  eexists. split; [apply r_stake; [exact Hc|exact Hm]|]. eapply alike_allowed; [|exact Hw]. intros a b. apply Hsp.
Qed.

Lemma permit_rule K x p a n s s' evs :
  stk_inv K s -> outside K a -> k_permit_and_stake K x p a n s = Ok (s', evs) ->
  exists w, rule K x (picture_of s) (KPermitAndStake p a n) w evs /\ alike w (picture_of s').
Proof.
  intros Hinv Ho H. unfold k_permit_and_stake in H.
  apply sk_bind_ok in H as (u & Hp & H). apply sk_require_ok in Hp.
  apply sk_bind_ok in H as (t1 & Ht1 & H). apply sk_bind_ok in H as (t2 & Ht & H). apply sk_token_ok in Ht.
  assert (Hf : (tk_allowance (bk_prove (sk_bank s)) a p = n \/ kx_permit_valid x = true) /\ allow_ok K t1 /\
    tk_balances t1 = tk_balances (bk_prove (sk_bank s)) /\
    forall o y, tk_allowance t1 o y = put a (put p n (tk_allowance (bk_prove (sk_bank s)) a)) (tk_allowance (bk_prove (sk_bank s))) o y).
  { destruct (N.eqb_spec (tk_allowance (bk_prove (sk_bank s)) a p) n) as [E|E].
    - injection Ht1 as <-. split; [now left|]. split; [exact (ki_allow K s Hinv)|]. split; [reflexivity|].
      intros o y. unfold put. destruct (N.eqb_spec o a) as [->|]; [|reflexivity]. destruct (N.eqb_spec y p) as [->|]; [exact E|reflexivity].
    - destruct (kx_permit_valid x) eqn:Hv; [|discriminate]. injection Ht1 as <-. split; [now right|].
      split; [apply approve_allow; [exact Ho|exact (ki_allow K s Hinv)]|]. split; [reflexivity|].
      intros o y. rewrite allowance_approve. unfold put. destruct (N.eqb_spec o a) as [->|]; [|reflexivity].
      destruct (N.eqb_spec y p); reflexivity. }
  destruct Hf as (Hv & Hal1 & Hb1 & Hs1).
  pose proof (proj1 (transfer_from_allow K _ _ _ _ _ _ (sao_distinct K (ki_addresses K s Hinv)) Hal1 Ht)) as Hal.
  apply transfer_from_spent in Ht as (Hx & Hm & Hle & Hsp & Hb). rewrite (balances_eq _ _ _ Hb1) in Hle.
  assert (Hb' : forall y, tk_balance t2 y = (if y =? a then tk_balance (bk_prove (sk_bank s)) y - n
     else tk_balance (bk_prove (sk_bank s)) y) + if y =? ke_self K then n else 0).
  { intros y. rewrite Hb, !(balances_eq _ _ _ Hb1). reflexivity. }
  destruct (stake_for_rule K a p n s t2 s' evs Hinv Hp Ho Hal Hle Hb' H) as (Hc & -> & Hw).
  eexists. split; [apply r_permit; [exact Hc|exact Hv]|]. eapply alike_allowed; [|exact Hw].
  intros o y. rewrite Hsp. unfold spent. rewrite Hs1. reflexivity.
Qed.

(** ** Unstaking *)

Lemma request_rule K x n s s' evs :
  stk_inv K s -> k_request_unstake K x n s = Ok (s', evs) ->
  exists w, rule K x (picture_of s) (KRequestUnstake n) w evs /\ alike w (picture_of s').
Proof.
  intros Hinv H. pose proof H as H0.
  apply request_unstake_ok in H as (Hn & Hp & Hmax & Hpend & Hle & b2 & e & Hv & -> & ->).
  assert (H64 : N.of_nat (length (claims_of s (kx_sender x))) < 2 ^ 64).
  { unfold k_request_unstake in H0. sk_inv. match goal with H : (_ <? two64) = true |- _ => apply N.ltb_lt in H; exact H end. }
  apply v_redeem_ok in Hv as (Htr & _ & He & Hsh & Hpr & His & Hst & Hsts & _). apply transfer_ok in Htr as (_ & _ & Htr).
  assert (He' : e = redeemed n (tk_balance (bk_iprove (sk_bank s)) (bound_to s (kx_sender x)))
    (default 0 (bk_shares (sk_bank s) !! bound_to s (kx_sender x)))) by exact He. clear He.
  eexists. split.
  - assert (Ee : e = redeemed n (pc_iprove (picture_of s) (pc_bound (picture_of s) (kx_sender x)))
                       (pc_shares (picture_of s) (pc_bound (picture_of s) (kx_sender x)))) by exact He'.
    rewrite Ee. apply r_request.
    + exact Hn.
    + exact Hle.
    + exact Hp.
    + apply (settled_iff K s _ Hinv). exact Hpend.
    + exact Hmax.
    + exact H64.
  - sk_simpl. split; pic; sk_simpl; fold (bound_to s (kx_sender x)); rewrite <- ?He'; try reflexivity.
    + intros y. now rewrite Hpr.
    + intros o y. now rewrite Hpr.
    + intros y. rewrite Htr. cbn [bk_set_stake bk_iprove]. cases.
    + now rewrite His.
    + intros y. rewrite Hsh. unfold minus. destruct (N.eqb_spec y (bound_to s (kx_sender x))) as [->|Hy].
      * rewrite lookup_insert. reflexivity.
      * rewrite lookup_insert_ne by congruence. reflexivity.
    + intros y. rewrite Hst. unfold minus. cbn [bk_set_stake bk_stakes]. destruct (N.eqb_spec y (kx_sender x)) as [->|Hy].
      * rewrite lookup_insert. reflexivity.
      * rewrite lookup_insert_ne by congruence. reflexivity.
    + rewrite Hsts. reflexivity.
    + intros y. unfold put. destruct (N.eqb_spec y (kx_sender x)) as [->|Hy].
      * rewrite lookup_insert. reflexivity.
      * rewrite lookup_insert_ne by congruence. reflexivity.
    + intros y. unfold put. destruct (N.eqb_spec y (bound_to s (kx_sender x))) as [->|Hy].
      * rewrite lookup_insert. reflexivity.
      * rewrite lookup_insert_ne by congruence. reflexivity.
Qed.

Lemma swap_remove_split (l : list unstake_claim) i c :
  l !! i = Some c ->
  (exists h, length h = i /\ l = h ++ [c] /\ swap_remove i l = h) \/
  (exists h m z, length h = i /\ l = h ++ c :: m ++ [z] /\ swap_remove i l = h ++ z :: m).
Proof.
  intros Hc. apply elem_of_list_split_length in Hc as (h & t & -> & ->).
  destruct t as [|z m _] using rev_ind.
  - left. exists h. split; [reflexivity|]. split; [reflexivity|]. unfold swap_remove. rewrite last_snoc, app_length.
    cbn [length]. replace (length h + 1 - 1)%nat with (length h) by lia.
    rewrite insert_app_r_alt by lia. rewrite Nat.sub_diag. apply take_app.
  - right. exists h, m, z. split; [reflexivity|]. split; [reflexivity|]. unfold swap_remove.
    replace (h ++ c :: m ++ [z]) with ((h ++ c :: m) ++ [z]) by (rewrite <- app_assoc; reflexivity).
    rewrite last_snoc, app_length. cbn [length]. replace (length (h ++ c :: m) + 1 - 1)%nat with (length (h ++ c :: m)) by lia.
    assert (Hl : (length h < length (h ++ c :: m))%nat) by (rewrite app_length; cbn [length]; lia).
    rewrite insert_app_l by exact Hl. rewrite take_app_alt by now rewrite insert_length.
    rewrite insert_app_r_alt by lia. rewrite Nat.sub_diag. reflexivity.
Qed.

Lemma finish_loop_due K now a p fuel : forall i claims pool b claims' pool' b' total evs,
  finish_loop K now a p fuel i claims pool b = Ok (claims', pool', b', total, evs) ->
  (length claims <= i + fuel)%nat ->
  (forall j c, (j < i)%nat -> claims !! j = Some c -> ~ matured K now c) ->
  exists paid, pay_run K a p paid pool b evs pool' b' /\ due K now claims paid claims'.
Proof.
  induction fuel as [|fuel IH]; intros i claims pool b claims' pool' b' total evs H Hlen Hbefore;
    cbn [finish_loop] in H.
  - sk_inv. subst. exists []. split; [constructor|]. apply due_none.
    apply Forall_lookup. intros j c Hc. apply (Hbefore j c); [|exact Hc].
    apply lookup_lt_Some in Hc. lia.
  - destruct (claims !! i) as [c|] eqn:Hc.
    + sk_inv. unfold sk_add in *.
      destruct (N.leb_spec (uc_time c + ke_unstake_period K) now) as [Hm|Hm].
      * sk_inv. subst.
        destruct (swap_remove_perm claims i c Hc) as (_ & Hlen' & Hsame).
        match goal with H : finish_loop _ _ _ _ _ _ _ _ _ = Ok _ |- _ =>
          apply IH in H as (paid & Hrun & Hd); [|lia|] end.
        -- exists (c :: paid). split; [econstructor; eassumption|].
           assert (Hh : forall h t, claims = h ++ t -> length h = i -> Forall (fun c => ~ matured K now c) h).
           { intros h t -> <-. apply Forall_lookup. intros j c' Hj. apply (Hbefore j c').
             - now apply lookup_lt_Some in Hj.
             - now apply lookup_app_l_Some. }
           destruct (swap_remove_split claims i c Hc) as [(h & Hl & E & Es)|(h & m & z & Hl & E & Es)]; rewrite Es in Hd.
           ++ rewrite E. apply due_last; [exact (Hh h [c] E Hl)|exact Hm|exact Hd].
           ++ rewrite E. apply due_moved; [exact (Hh h (c :: m ++ [z]) E Hl)|exact Hm|exact Hd].
        -- intros j c' Hj Hc'. rewrite Hsame in Hc' by exact Hj. now apply (Hbefore j).
      * apply IH in H as (paid & Hrun & Hd); [|lia|].
        -- exists paid. auto.
        -- intros j c' Hj Hc'. destruct (decide (j = i)) as [->|]; [|apply (Hbefore j); [lia|exact Hc']].
           rewrite Hc in Hc'. injection Hc' as <-. unfold matured. lia.
    + sk_inv. subst. exists []. split; [constructor|]. apply due_none.
      apply Forall_lookup. intros j c Hcj. apply (Hbefore j c); [|exact Hcj].
      apply lookup_ge_None in Hc. apply lookup_lt_Some in Hcj. lia.
Qed.

(** A picture shows the bank [b] and the escrow [pool] of [p]. *)
Definition shows (v : picture) (p : N) (b : bank) (pool : escrow_pool) : Prop :=
  (forall y, pc_prove v y = tk_balance (bk_prove b) y) /\ (forall y, pc_iprove v y = tk_balance (bk_iprove b) y) /\
  pc_isupply v = bk_isupply b /\ pc_pools v p = pool.

Lemma payments_shown K a p paid pool b evs pool' b' :
  pay_run K a p paid pool b evs pool' b' ->
  tk_allowances (bk_prove b') = tk_allowances (bk_prove b) /\ same_shares b b' /\
  forall v, shows v p b pool ->
  exists f g n h, payments K a p paid v = (with_prove f (pc_allowed v) (with_iprove g n (with_pools h v)), evs) /\
    shows (with_prove f (pc_allowed v) (with_iprove g n (with_pools h v))) p b' pool' /\
    forall y, y <> p -> h y = pc_pools v y.
Proof.
  induction 1 as [pool b|c rest pool b pool1 b1 prove ev evs pool' b' Hf Hrun IH].
  - split; [reflexivity|]. split; [repeat split|]. intros v Hv.
    exists (pc_prove v), (pc_iprove v), (pc_isupply v), (pc_pools v). split; [now destruct v|]. split; [exact Hv|]. reflexivity.
  - destruct IH as (Ha & Hs & IH). apply finish_request_ok in Hf as (_ & Hf). cbv zeta in Hf.
    destruct Hf as (-> & He & Hff & Hcase).
    set (i := N.min (claim_value (ep_factor pool) c) (ep_escrow pool)) in *.
    assert (Hb : tk_allowances (bk_prove b1) = tk_allowances (bk_prove b) /\ same_shares b b1 /\
      prove = redeemed i (i_assets K b) (bk_isupply b) /\ bk_isupply b1 = bk_isupply b - i /\
      (forall y, tk_balance (bk_prove b1) y = moved (ke_iprove K) a prove (tk_balance (bk_prove b)) y) /\
      (forall y, tk_balance (bk_iprove b1) y = minus (ke_self K) i (tk_balance (bk_iprove b)) y)).
    { destruct Hcase as [(E & -> & ->)|Hr].
      - split; [reflexivity|]. split; [repeat split|]. rewrite E. split.
        { symmetry. unfold redeemed. rewrite N.mul_0_l. apply N.div_0_l. lia. }
        split; [lia|]. split; intros y; cases.
      - apply i_redeem_ok in Hr as (Ht & _ & -> & His & Hib & _ & Hss). apply transfer_ok in Ht as (Hal & _ & Hpb).
        split; [exact Hal|]. split; [exact Hss|]. split; [reflexivity|]. split; [exact His|]. split; intros y.
        + rewrite Hpb. cases.
        + rewrite Hib. cases. }
    destruct Hb as (Ha1 & Hs1 & Epr & His1 & Hpb1 & Hib1).
    split; [congruence|]. split.
    { destruct Hs as (X1 & X2 & X3), Hs1 as (Y1 & Y2 & Y3). repeat split; congruence. }
    intros v (V1 & V2 & V3 & V4). cbn [payments]. rewrite V4. fold i.
    assert (Ev : redeemed i (vault K v) (pc_isupply v) = prove).
    { unfold vault. rewrite V1, V3, Epr. reflexivity. }
    rewrite Ev.
    destruct (IH (with_prove (moved (ke_iprove K) a prove (pc_prove v)) (pc_allowed v)
                  (with_iprove (minus (ke_self K) i (pc_iprove v)) (pc_isupply v - i)
                    (with_pools (put p (EscrowPool (ep_escrow pool - i) (ep_factor pool)) (pc_pools v)) v))))
      as (f & g & n & h & Hpay & Hshow & Hh).
    { unfold shows. pic. split; [|split; [|split]].
      - intros y. rewrite Hpb1. unfold moved, plus, minus. now rewrite V1.
      - intros y. rewrite Hib1. unfold minus. now rewrite V2.
      - rewrite His1. now rewrite V3.
      - unfold put. rewrite N.eqb_refl. destruct pool1 as [e1 f1]. sk_simpl. now rewrite He, Hff. }
    exists f, g, n, h. pic. rewrite Hpay. split; [reflexivity|]. split; [exact Hshow|].
    intros y Hy. rewrite Hh by exact Hy. unfold put. destruct (N.eqb_spec y p); [congruence|reflexivity].
Qed.

Lemma finish_rule K x a s s' evs :
  stk_inv K s -> k_finish_unstake K x a s = Ok (s', evs) ->
  exists w, rule K x (picture_of s) (KFinishUnstake a) w evs /\ alike w (picture_of s').
Proof.
  intros Hinv H. pose proof H as H0. apply finish_unstake_ok in H0 as (Hp & Hc & Hpend & _).
  unfold k_finish_unstake in H. sk_inv. subst.
  match goal with H : finish_loop _ _ _ _ _ _ _ _ _ = Ok _ |- _ => rename H into Hl end.
  apply finish_loop_due in Hl as (paid & Hrun & Hdue); [|lia|intros j ? Hj; lia].
  destruct (payments_shown _ _ _ _ _ _ _ _ _ Hrun) as (Hal & (Hs1 & Hs2 & Hs3) & Hpay).
  destruct (Hpay (picture_of s)) as (f & g & supply & h & Epay & (S1 & S2 & S3 & S4) & Hh).
  { unfold shows. pic. repeat split. }
  eexists. split.
  - eapply r_finish.
    + exact Hp.
    + exact Hc.
    + apply (settled_iff K s _ Hinv). exact Hpend.
    + exact Hdue.
    + exact Epay.
  - assert (Est : stake_of b a = pc_stprove (picture_of s) a) by (unfold stake_of; pic; now rewrite Hs2).
    rewrite Est. pic. fold (bound_to s a) in *.
    assert (Epool : (if (ep_escrow e =? 0) && negb (ep_factor e =? slash_scalar) then EscrowPool (ep_escrow e) slash_scalar else e)
              = refreshed (h (bound_to s a))).
    { rewrite S4. unfold refreshed. change slash_scalar with (10 ^ 27). destruct e as [e0 f0]. sk_simpl.
      destruct (N.eqb_spec e0 0) as [->|]; [|reflexivity]. destruct (N.eqb_spec f0 (10 ^ 27)) as [->|]; reflexivity. }
    rewrite Epool. set (leaves := (_ =? 0) && (_ =? 0)%nat).
    split; pic; destruct leaves; sk_simpl; try reflexivity; try assumption.
    + intros o y. unfold tk_allowance. now rewrite Hal.
    + intros o y. unfold tk_allowance. now rewrite Hal.
    + intros y. now rewrite Hs1.
    + intros y. now rewrite Hs1.
    + intros y. now rewrite Hs2.
    + intros y. now rewrite Hs2.
    + now rewrite Hs3.
    + now rewrite Hs3.
    + intros y. unfold put. destruct (N.eqb_spec y a) as [->|Hy]; [now rewrite lookup_insert|now rewrite lookup_insert_ne by congruence].
    + intros y. unfold put. destruct (N.eqb_spec y a) as [->|Hy]; [now rewrite lookup_insert|now rewrite lookup_insert_ne by congruence].
    + intros y. unfold put. destruct (N.eqb_spec y a) as [->|Hy]; [now rewrite lookup_insert|now rewrite lookup_insert_ne by congruence].
    + intros y. unfold put. destruct (N.eqb_spec y (bound_to s a)) as [->|Hy]; [now rewrite lookup_insert|].
      rewrite lookup_insert_ne by congruence. now rewrite Hh.
    + intros y. unfold put. destruct (N.eqb_spec y (bound_to s a)) as [->|Hy]; [now rewrite lookup_insert|].
      rewrite lookup_insert_ne by congruence. now rewrite Hh.
Qed.

(** ** Slashing *)

Lemma prover_in s p : p ∈ rg_provers (sk_registry s) -> pc_provers (picture_of s) p = true.
Proof. intros H. pic. now apply bool_decide_eq_true. Qed.

Lemma request_slash_rule K x p n s s' evs :
  k_request_slash K x p n s = Ok (s', evs) ->
  exists w, rule K x (picture_of s) (KRequestSlash p n) w evs /\ alike w (picture_of s').
Proof.
  intros H. apply request_slash_ok in H as (Hx & Hp & Hn & Hl & -> & ->).
  eexists. split; [apply r_request_slash; [exact Hx|exact (prover_in s p Hp)|exact Hn|exact Hl]|].
  split; pic; sk_simpl; try reflexivity.
  intros y. unfold put. destruct (N.eqb_spec y p) as [->|Hy]; [now rewrite lookup_insert|now rewrite lookup_insert_ne by congruence].
Qed.

Lemma cancel_slash_rule K x p i s s' evs :
  k_cancel_slash K x p i s = Ok (s', evs) ->
  exists w, rule K x (picture_of s) (KCancelSlash p i) w evs /\ alike w (picture_of s').
Proof.
  intros H. apply cancel_slash_ok in H as (c & Hc & Hr & Hp & Ht & -> & ->).
  eexists. split; [apply r_cancel_slash; [exact (prover_in s p Hp)|exact Hc|exact Hr|exact Ht]|].
  split; pic; sk_simpl; try reflexivity.
  intros y. unfold put. destruct (N.eqb_spec y p) as [->|Hy]; [now rewrite lookup_insert|now rewrite lookup_insert_ne by congruence].
Qed.

Lemma slash_if_exact K o n b b' prove :
  slash_if_nonzero K o n b = Ok (b', prove) ->
  tk_allowances (bk_prove b') = tk_allowances (bk_prove b) /\ same_shares b b' /\
  prove = redeemed n (i_assets K b) (bk_isupply b) /\ bk_isupply b' = bk_isupply b - n /\
  (forall y, tk_balance (bk_prove b') y = minus (ke_iprove K) prove (tk_balance (bk_prove b)) y) /\
  (forall y, tk_balance (bk_iprove b') y = minus o n (tk_balance (bk_iprove b)) y).
Proof.
  unfold slash_if_nonzero. destruct (N.eqb_spec n 0) as [->|Hn]; intros H.
  - injection H as <- <-. split; [reflexivity|]. split; [repeat split|]. split.
    { symmetry. unfold redeemed. rewrite N.mul_0_l. apply N.div_0_l. lia. }
    split; [lia|]. split; intros y; cases.
  - apply i_slash_ok in H as (Ht & _ & -> & His & Hib & _ & Hss). apply burn_ok in Ht as (Hal & _ & Hpb).
    split; [exact Hal|]. split; [exact Hss|]. split; [reflexivity|]. split; [exact His|]. split; intros y.
    + rewrite Hpb. cases.
    + rewrite Hib. cases.
Qed.

Lemma deactivate_exact p s s' :
  deactivate_if_below_min p s = Ok s' ->
  exists d, s' = sk_set_registry (Registry (rg_provers (sk_registry s)) d (rg_owners (sk_registry s)) (rg_count (sk_registry s))) s /\
    forall y, bool_decide (y ∈ d) = put p (is_deactivated s p || worthless (v_assets p (sk_bank s)) (shares_of (sk_bank s) p))
      (is_deactivated s) y.
Proof.
  intros H. unfold deactivate_if_below_min in H.
  assert (Hstay : is_deactivated s p = true \/ worthless (v_assets p (sk_bank s)) (shares_of (sk_bank s) p) = false -> s' = s ->
    exists d, s' = sk_set_registry (Registry (rg_provers (sk_registry s)) d (rg_owners (sk_registry s)) (rg_count (sk_registry s))) s /\
    forall y, bool_decide (y ∈ d) = put p (is_deactivated s p || worthless (v_assets p (sk_bank s)) (shares_of (sk_bank s) p))
      (is_deactivated s) y).
  { intros Hw ->. exists (rg_deactivated (sk_registry s)). split; [now destruct s as [? ? []]|]. intros y. unfold put.
    destruct (N.eqb_spec y p) as [->|]; [|reflexivity].
    change (is_deactivated s p = is_deactivated s p || worthless (v_assets p (sk_bank s)) (shares_of (sk_bank s) p)).
    destruct Hw as [-> | ->]; [reflexivity|]. now rewrite orb_false_r. }
  destruct (is_deactivated s p) eqn:Hd; [apply Hstay; [now left|congruence]|].
  destruct (N.eqb_spec (shares_of (sk_bank s) p) 0) as [E|E].
  { apply Hstay; [|congruence]. right. unfold worthless. now rewrite E. }
  apply sk_bind_ok in H as (price & Hm & H). apply mul_div_ok in Hm as (-> & _ & _).
  change min_price_per_share with (10 ^ 9) in H.
  destruct (v_assets p (sk_bank s) * 10 ^ 18 / shares_of (sk_bank s) p <? 10 ^ 9) eqn:Hlow.
  - injection H as <-. eexists. split; [reflexivity|]. intros y. unfold put, worthless. rewrite Hlow.
    destruct (N.eqb_spec (shares_of (sk_bank s) p) 0); [congruence|]. cbn [negb andb orb].
    destruct (N.eqb_spec y p) as [->|Hy].
    + apply bool_decide_eq_true. set_solver.
    + unfold is_deactivated. apply bool_decide_ext. set_solver.
  - apply Hstay; [|congruence]. right. unfold worthless. now rewrite Hlow, andb_false_r.
Qed.

Lemma finish_slash_rule K x p i s s' evs :
  stk_inv K s -> k_finish_slash K x p i s = Ok (s', evs) ->
  exists w, rule K x (picture_of s) (KFinishSlash p i) w evs /\ alike w (picture_of s').
Proof.
  intros Hinv H. pose proof H as H0.
  apply finish_slash_ok in H0 as (c & d0 & burned0 & Hc & Hr & Hx & Hp & _).
  destruct (ki_provers K s Hinv p Hp) as (Hp0 & Hps & Hpi).
  unfold k_finish_slash in H. apply sk_bind_ok in H as (u1 & _ & H). apply sk_bind_ok in H as (u2 & _ & H).
  apply sk_bind_ok in H as (c' & Hc' & H). unfold slash_at in Hc'. rewrite Hc in Hc'. injection Hc' as <-.
  apply sk_bind_ok in H as (u3 & _ & H). cbv zeta in H. apply sk_bind_ok in H as (total & Ht & H).
  unfold sk_add in Ht. sk_inv. subst.
  assert (Eam : (if v_assets p (sk_bank s) + ep_escrow (pool_of s p) <? sc_amount c
                 then v_assets p (sk_bank s) + ep_escrow (pool_of s p) else sc_amount c) = slash_amount (picture_of s) p c).
  { unfold slash_amount, slash_total. pic. unfold v_assets, pool_of in *.
    destruct (N.ltb_spec (tk_balance (bk_iprove (sk_bank s)) p + ep_escrow (default (EscrowPool 0 0) (sk_pools s !! p))) (sc_amount c)); lia. }
  assert (total = v_assets p (sk_bank s) + ep_escrow (pool_of s p)) as -> by (destruct (_ <? two256) in Ht; congruence).
  rewrite Eam in *. clear Eam Ht. rename s0 into s2.
  match goal with H : deactivate_if_below_min p s2 = _ |- _ => rename H into Hde end.
  match goal with H : _ = Ok (s2, n) |- _ => rename H into Hb end.
  set (v := picture_of s) in *. set (A := slash_amount v p c) in *.
  assert (Hmid : sk_owner s2 = sk_owner s /\ sk_registry s2 = sk_registry s /\ sk_dispensing s2 = sk_dispensing s /\
    sk_bound s2 = sk_bound s /\ sk_claims s2 = sk_claims s /\
    sk_slashes s2 = <[p := <[N.to_nat i := SlashClaim (sc_amount c) (sc_time c) true]> (slashes_of s p)]> (sk_slashes s) /\
    tk_allowances (bk_prove (sk_bank s2)) = tk_allowances (bk_prove (sk_bank s)) /\ same_shares (sk_bank s) (sk_bank s2) /\
    n = burned_first K v p c + burned_second K v p c /\ bk_isupply (sk_bank s2) = bk_isupply (sk_bank s) - A /\
    (forall y, tk_balance (bk_prove (sk_bank s2)) y = minus (ke_iprove K) n (tk_balance (bk_prove (sk_bank s))) y) /\
    (forall y, tk_balance (bk_iprove (sk_bank s2)) y
       = put p (tk_balance (bk_iprove (sk_bank s)) p - from_vault v p c)
           (minus (ke_self K) (from_escrow v p c) (tk_balance (bk_iprove (sk_bank s)))) y) /\
    forall y, pool_of s2 y = put p (EscrowPool (ep_escrow (pool_of s p) - from_escrow v p c) (factor_after v p c)) (pool_of s) y).
  { clear Hde. destruct (N.eqb_spec A 0) as [E|E].
    - injection Hb as <- <-. cbn [resolve_slash sk_set_slashes]. sk_simpl.
      assert (Efe : from_escrow v p c = 0).
      { unfold from_escrow. fold A. rewrite E, N.mul_0_l. destruct (N.eq_dec (slash_total v p) 0) as [-> | Hz]; [reflexivity|now apply N.div_0_l]. }
      assert (Efv : from_vault v p c = 0) by (unfold from_vault; fold A; lia).
      assert (Er : forall a b, redeemed 0 a b = 0).
      { intros a b. unfold redeemed. rewrite N.mul_0_l. apply N.div_0_l. lia. }
      repeat match goal with |- _ /\ _ => split end; try reflexivity; try exact (conj eq_refl (conj eq_refl eq_refl)).
      + unfold burned_first, burned_second. rewrite Efe, Efv, !Er. reflexivity.
      + lia.
      + intros y. cases.
      + intros y. rewrite Efe, Efv. cases.
      + intros y. unfold put, pool_of. cbn [resolve_slash sk_set_slashes sk_pools]. destruct (N.eqb_spec y p) as [->|]; [|reflexivity].
        unfold factor_after. fold A. rewrite Efe, E, N.eqb_refl, N.sub_0_r. unfold v. pic. now destruct (default _ _).
    - apply sk_bind_ok in Hb as (fe & Hfe & Hb). apply mul_div_ok in Hfe as (Hfe & Ht0 & _).
      assert (Efe : fe = from_escrow v p c) by exact Hfe. clear Hfe. rewrite Efe in *. clear fe Efe.
      apply sk_bind_ok in Hb as ((b1 & pr1) & H1 & Hb). apply sk_bind_ok in Hb as ((b2 & pr2) & H2 & Hb).
      apply sk_bind_ok in Hb as (f & Hf & Hb). apply sk_bind_ok in Hb as (pr & Hpr & Hb).
      unfold sk_add in Hpr. destruct (pr1 + pr2 <? two256); [|discriminate]. injection Hpr as <-. injection Hb as <- <-.
      cbn [resolve_slash sk_set_slashes] in H1. sk_simpl.
      apply slash_if_exact in H1 as (A1 & (B1 & B2 & B3) & C1 & D1 & E1 & F1).
      apply slash_if_exact in H2 as (A2 & (B4 & B5 & B6) & C2 & D2 & E2 & F2).
      pose proof (slash_split A (ep_escrow (pool_of s p)) (v_assets p (sk_bank s))) as Hsplit.
      assert (Hle : A <= v_assets p (sk_bank s) + ep_escrow (pool_of s p)) by apply N.le_min_r.
      specialize (Hsplit Hle Ht0) as [Hs1 Hs2].
      change (A * ep_escrow (pool_of s p) / (v_assets p (sk_bank s) + ep_escrow (pool_of s p))) with (from_escrow v p c) in Hs1, Hs2.
      assert (P1 : pr1 = burned_first K v p c) by exact C1.
      assert (P2 : pr2 = burned_second K v p c).
      { rewrite C2. unfold burned_second, i_assets. rewrite E1, D1, P1. unfold minus. rewrite N.eqb_refl. reflexivity. }
      repeat match goal with |- _ /\ _ => split end; try reflexivity; try congruence.
      + split; [congruence|split; congruence].
      + rewrite D2, D1. lia.
      + intros y. rewrite E2. unfold minus at 1. rewrite E1. cases.
      + intros y. rewrite F2. unfold minus at 1. rewrite F1. change (from_vault v p c) with (A - from_escrow v p c). cases.
      + intros y. unfold pool_of, put. cbn [sk_set_pool sk_pools resolve_slash sk_set_slashes sk_set_bank].
        destruct (N.eqb_spec y p) as [->|Hy]; [|now rewrite lookup_insert_ne by congruence].
        rewrite lookup_insert. cbn [default from_option id]. f_equal. unfold factor_after. fold A.
        destruct (N.eqb_spec A 0); [congruence|].
        apply slashed_factor_ok in Hf as [[Hz ->] | [_ ->]].
        * assert (slash_total v p - A = 0) as -> by exact Hz. rewrite N.mul_0_l. rewrite (N.div_0_l (slash_total v p)) by exact Ht0.
          rewrite N.mul_0_r. reflexivity.
        * reflexivity. }
  destruct Hmid as (M1 & M2 & M3 & M4 & M5 & M6 & M7 & (M8 & M9 & M10) & M11 & M12 & M13 & M14 & M15).
  apply deactivate_exact in Hde as (d & -> & Hd).
  eexists. split.
  - rewrite M11. apply r_finish_slash; [exact Hx|exact (prover_in s p Hp)|exact Hc|exact Hr].
  - unfold after_slash. rewrite <- M11. split; unfold v; pic; sk_simpl; rewrite ?M2; try reflexivity; try congruence.
    all: try intros y; lazymatch goal with
      | |- forall _, _ = _ => intros z; unfold tk_allowance; now rewrite M7
      | |- _ = bool_decide _ => idtac
      | |- _ = default [] (sk_slashes _ !! _) => idtac
      | |- _ = default (EscrowPool 0 0) _ => idtac
      | _ => now rewrite ?M14, ?M8, ?M9, ?M4, ?M5, ?M12
      end.
    + rewrite Hd. unfold put, is_deactivated. rewrite M2. unfold v_assets, shares_of. rewrite M14, M8.
      unfold put. rewrite N.eqb_refl. reflexivity.
    + rewrite M6. unfold put. destruct (N.eqb_spec y p) as [->|]; [now rewrite lookup_insert|now rewrite lookup_insert_ne by congruence].
    + symmetry. apply M15.
Qed.

(** ** Rewards, settings and provers *)

Lemma max_dispense_ok x d available :
  max_dispense x d = Ok available ->
  dp_since d <= kx_time x /\ dp_distributed d <= earned_now x d /\ available = earned_now x d - dp_distributed d /\
  earned_now x d < 2 ^ 256.
Proof.
  unfold max_dispense, earned_now, sk_sub, sk_mul, sk_add, sk_bind. change two256 with (2 ^ 256).
  destruct (N.leb_spec (dp_since d) (kx_time x)); [|discriminate].
  destruct (N.ltb_spec ((kx_time x - dp_since d) * dp_rate d) (2 ^ 256)); [|discriminate].
  destruct (N.ltb_spec (dp_earned d + (kx_time x - dp_since d) * dp_rate d) (2 ^ 256)); [|discriminate].
  destruct (N.leb_spec (dp_distributed d) (dp_earned d + (kx_time x - dp_since d) * dp_rate d)); [|discriminate].
  intros [= <-]. auto.
Qed.

Lemma dispense_rule K x n s s' evs :
  k_dispense K x n s = Ok (s', evs) ->
  exists w, rule K x (picture_of s) (KDispense n) w evs /\ alike w (picture_of s').
Proof.
  intros H. apply dispense_ok in H as (available & t & Hx & Ha & H). cbv zeta in H.
  destruct H as (Hn & Hle & Ht & -> & ->). apply transfer_ok in Ht as (Hal & Hbal & Hb).
  apply max_dispense_ok in Ha as (Hs & Hd & -> & _). change u256_max with (2 ^ 256 - 1) in *.
  eexists. split.
  - apply (r_dispense K x (picture_of s) n); pic.
    + exact Hx.
    + exact Hn.
    + lia.
    + exact Hs.
    + exact Hbal.
  - split; pic; sk_simpl; try reflexivity.
    + intros y. rewrite Hb. unfold moved, plus, minus. destruct (y =? ke_self K), (y =? ke_iprove K); lia.
    + intros o y. unfold tk_allowance. now rewrite Hal.
Qed.

Lemma set_dispenser_rule K x a s s' evs :
  k_set_dispenser x a s = Ok (s', evs) ->
  exists w, rule K x (picture_of s) (KSetDispenser a) w evs /\ alike w (picture_of s').
Proof.
  intros H. unfold k_set_dispenser in H. sk_inv. subst. eexists. split; [apply r_set_dispenser; now apply N.eqb_eq|].
  split; reflexivity.
Qed.

Lemma update_rate_rule K x rate s s' evs :
  k_update_rate x rate s = Ok (s', evs) ->
  exists w, rule K x (picture_of s) (KUpdateRate rate) w evs /\ alike w (picture_of s').
Proof.
  intros H. unfold k_update_rate in H. apply sk_bind_ok in H as (u & Hx & H). apply sk_require_ok in Hx. apply N.eqb_eq in Hx.
  cbv zeta in H. unfold sk_sub, sk_mul, sk_add, sk_bind in H.
  destruct (N.leb_spec (dp_since (sk_dispensing s)) (kx_time x)); [|discriminate].
  destruct ((kx_time x - dp_since (sk_dispensing s)) * dp_rate (sk_dispensing s) <? two256); [|discriminate].
  destruct (dp_earned (sk_dispensing s) + (kx_time x - dp_since (sk_dispensing s)) * dp_rate (sk_dispensing s) <? two256);
    [|discriminate]. injection H as <- <-.
  eexists. split; [apply r_update_rate; assumption|]. split; reflexivity.
Qed.

Lemma create_prover_rule K x bips s s' evs :
  k_create_prover K x bips s = Ok (s', evs) ->
  exists w, rule K x (picture_of s) (KCreateProver bips) w evs /\ alike w (picture_of s').
Proof.
  intros H. unfold k_create_prover in H. sk_inv. subst.
  set (p := ke_create2 K (kx_sender x) ((rg_count (sk_registry s) + 1) mod two256) bips) in *.
  eexists. split.
  - apply r_create_prover.
    + lia.
    + pic. now apply N.eqb_eq.
    + assumption.
    + assumption.
  - split; pic; sk_simpl; try reflexivity.
    + intros y. unfold put. change (ke_create2 K (kx_sender x) ((rg_count (sk_registry s) + 1) mod 2 ^ 256) bips) with p.
      destruct (N.eqb_spec y p) as [->|Hy].
      * symmetry. apply bool_decide_eq_true. set_solver.
      * apply bool_decide_ext. set_solver.
    + intros y. unfold put. destruct (N.eqb_spec y (kx_sender x)) as [->|Hy]; [now rewrite lookup_insert|now rewrite lookup_insert_ne by congruence].
Qed.

Lemma reward_rule K x p n s s' evs :
  stk_inv K s -> k_reward K p n s = Ok (s', evs) ->
  exists w, rule K x (picture_of s) (KReward p n) w evs /\ alike w (picture_of s').
Proof.
  intros Hinv H. apply reward_ok in H as (Hp & -> & b & sh & Hd & ->). pose proof Hd as Hd0.
  apply i_deposit_ok in Hd as (t1 & Ht1 & Hb1 & _ & Hish & Hisup & Hibal & _ & Hs1 & Hs2 & Hs3).
  apply transfer_from_spent in Ht1 as (_ & Hm & Hle & Hsp & Hb).
  assert (Esh : sh = issued n (vault K (picture_of s)) (pc_isupply (picture_of s))) by exact Hish.
  eexists. split.
  - apply r_reward.
    + now apply prover_in.
    + exact Hle.
    + exact Hm.
    + rewrite <- Esh. unfold i_deposit, i_preview_deposit, i_mint in Hd0. sk_inv. subst. sk_simpl.
      match goal with H : (_ <=? max_votes_supply) = true |- _ => apply N.leb_le in H; unfold max_votes_supply in H end.
      pic. lia.
  - rewrite <- Esh. split; pic; sk_simpl; try reflexivity.
    + intros y. rewrite Hb1, Hb. cases.
    + intros o y. rewrite Hb1, Hsp. reflexivity.
    + intros y. rewrite Hibal. cases.
    + now rewrite Hisup.
    + intros y. now rewrite Hs1.
    + intros y. now rewrite Hs2.
    + now rewrite Hs3.
Qed.

Lemma transfer_ownership_rule K x a s s' evs :
  k_transfer_ownership x a s = Ok (s', evs) ->
  exists w, rule K x (picture_of s) (KTransferOwnership a) w evs /\ alike w (picture_of s').
Proof.
  intros H. unfold k_transfer_ownership in H. sk_inv. subst. eexists. split; [apply r_transfer_ownership|].
  - now apply N.eqb_eq.
  - lia.
  - split; reflexivity.
Qed.
Lemma renounce_ownership_rule K x s s' evs :
  k_renounce_ownership x s = Ok (s', evs) ->
  exists w, rule K x (picture_of s) KRenounceOwnership w evs /\ alike w (picture_of s').
Proof.
  intros H. unfold k_renounce_ownership in H. sk_inv. subst. eexists. split; [apply r_renounce_ownership|].
  - now apply N.eqb_eq.
  - split; reflexivity.
Qed.

Theorem rules_followed K x c s s' evs :
  stk_inv K s -> by_outsider K (KAccepted x c evs s') -> staking_run K x c s = Ok (s', evs) ->
  exists w, rule K x (picture_of s) c w evs /\ alike w (picture_of s').
Proof.
  intros Hinv Ho H. destruct c; cbn [staking_run] in H; cbn [by_outsider] in Ho.
  - now apply stake_rule.
  - apply permit_rule; [exact Hinv|apply Ho|exact H].
  - now apply request_rule.
  - now apply finish_rule.
  - now apply request_slash_rule.
  - now apply cancel_slash_rule.
  - now apply finish_slash_rule.
  - now apply dispense_rule.
  - now apply set_dispenser_rule.
  - now apply update_rate_rule.
  - now apply create_prover_rule.
  - now apply reward_rule.
  - now apply transfer_ownership_rule.
  - now apply renounce_ownership_rule.
Qed.
