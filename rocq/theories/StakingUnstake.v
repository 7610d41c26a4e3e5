(** Finishing unstake requests and slashing. *)
From Verif Require Export StakingFacts.
From Coq Require Import Lia ZifyBool ZifyN ZifyNat.
Open Scope N_scope.

(** ** The loop over the claims *)

Lemma swap_remove_perm l i c :
  l !! i = Some c -> Permutation l (c :: swap_remove i l) /\
  length l = S (length (swap_remove i l)) /\ (forall j, (j < i)%nat -> swap_remove i l !! j = l !! j).
Proof.
  intros Hc. unfold swap_remove. destruct l as [|z l0 _] using rev_ind; [discriminate|].
  rewrite last_snoc, app_length. cbn [length]. replace (length l0 + 1 - 1)%nat with (length l0) by lia.
  pose proof (lookup_lt_Some _ _ _ Hc) as Hi. rewrite app_length in Hi. cbn [length] in Hi.
  destruct (decide (i = length l0)) as [->|Hne].
  - rewrite list_lookup_middle in Hc by reflexivity. injection Hc as ->.
    rewrite insert_app_r_alt by lia. rewrite Nat.sub_diag. cbn [list_insert insert]. change (<[0%nat:=c]> [c]) with [c]. rewrite take_app.
    split; [symmetry; apply Permutation_cons_append|]. split; [lia|]. intros j Hj. now rewrite lookup_app_l by lia.
  - assert (Hi0 : (i < length l0)%nat) by lia. rewrite lookup_app_l in Hc by exact Hi0.
    rewrite insert_app_l by exact Hi0. rewrite take_app_alt by now rewrite insert_length.
    split; [|split].
    + rewrite <- Permutation_cons_append. apply elem_of_list_split_length in Hc as (l1 & l2 & -> & ->).
      replace (length l1) with (length l1 + 0)%nat by lia. rewrite insert_app_r. cbn [insert list_insert].
      change (<[0%nat:=z]> (c :: l2)) with (z :: l2).
      rewrite <- !Permutation_middle. apply perm_swap.
    + rewrite insert_length. lia.
    + intros j Hj. rewrite list_lookup_insert_ne by lia. now rewrite lookup_app_l by lia.
Qed.

(** Paying claims one after the other. *)
Inductive pay_run (K : staking_env) (a p : N) :
    list unstake_claim -> escrow_pool -> bank -> list staking_event -> escrow_pool -> bank -> Prop :=
| pr_nil pool b : pay_run K a p [] pool b [] pool b
| pr_cons c rest pool b pool1 b1 prove ev evs pool' b' :
    finish_request K a p c pool b = Ok (pool1, b1, prove, ev) ->
    pay_run K a p rest pool1 b1 evs pool' b' ->
    pay_run K a p (c :: rest) pool b (ev :: evs) pool' b'.

Lemma finish_loop_ok K now a p fuel : forall i claims pool b claims' pool' b' total evs,
  finish_loop K now a p fuel i claims pool b = Ok (claims', pool', b', total, evs) ->
  (length claims <= i + fuel)%nat ->
  (forall j c, (j < i)%nat -> claims !! j = Some c -> ~ matured K now c) ->
  exists done, pay_run K a p done pool b evs pool' b' /\ Forall (matured K now) done /\
    Forall (fun c => ~ matured K now c) claims' /\ Permutation claims (done ++ claims').
Proof.
  induction fuel as [|fuel IH]; intros i claims pool b claims' pool' b' total evs H Hlen Hbefore;
    cbn [finish_loop] in H.
  - sk_inv. subst. exists []. split; [constructor|]. split; [constructor|]. split; [|reflexivity].
    apply Forall_lookup. intros j c Hc. apply (Hbefore j c); [|exact Hc].
    apply lookup_lt_Some in Hc. lia.
  - destruct (claims !! i) as [c|] eqn:Hc.
    + sk_inv. unfold sk_add in *.
      destruct (N.leb_spec (uc_time c + ke_unstake_period K) now) as [Hm|Hm].
      * sk_inv. subst.
        destruct (swap_remove_perm claims i c Hc) as (Hperm & Hlen' & Hsame).
        match goal with H : finish_loop _ _ _ _ _ _ _ _ _ = Ok _ |- _ =>
          apply IH in H as (done & Hrun & Hd & Hleft & Hp); [|lia|] end.
        -- exists (c :: done). split; [econstructor; eassumption|]. split; [now constructor|]. split; [exact Hleft|].
           rewrite Hperm. cbn [app]. now rewrite <- Hp.
        -- intros j c' Hj Hc'. rewrite Hsame in Hc' by exact Hj. now apply (Hbefore j).
      * apply IH in H as (done & Hrun & Hd & Hleft & Hp); [|lia|].
        -- exists done. auto.
        -- intros j c' Hj Hc'. destruct (decide (j = i)) as [->|]; [|apply (Hbefore j); [lia|exact Hc']].
           rewrite Hc in Hc'. injection Hc' as <-. unfold matured. lia.
    + sk_inv. subst. exists []. split; [constructor|]. split; [constructor|]. split; [|reflexivity].
      apply Forall_lookup. intros j c Hcj. apply (Hbefore j c); [|exact Hcj].
      apply lookup_ge_None in Hc. apply lookup_lt_Some in Hcj. lia.
Qed.

Lemma finish_request_ok K a p c pool b pool1 b1 prove ev :
  finish_request K a p c pool b = Ok (pool1, b1, prove, ev) ->
  uc_factor c <> 0 /\
  let paid := N.min (claim_value (ep_factor pool) c) (ep_escrow pool) in
  ev = EvUnstake a p prove paid /\ ep_escrow pool1 = ep_escrow pool - paid /\ ep_factor pool1 = ep_factor pool /\
  ((paid = 0 /\ b1 = b /\ prove = 0) \/ i_redeem K paid a (ke_self K) b = Ok (b1, prove)).
Proof.
  unfold finish_request. intros H. sk_inv. split; [assumption|]. cbv zeta. unfold claim_value.
  set (v := uc_escrow c * ep_factor pool / uc_factor c) in *.
  assert ((if ep_escrow pool <? v then ep_escrow pool else v) = N.min v (ep_escrow pool)) as E
    by (destruct (N.ltb_spec (ep_escrow pool) v); lia).
  rewrite E in H. set (paid := N.min v (ep_escrow pool)) in *.
  destruct (N.eqb_spec paid 0) as [E0|E0]; sk_inv; subst; sk_simpl.
  - split; [reflexivity|]. split; [lia|]. split; [reflexivity|]. left. auto.
  - split; [reflexivity|]. split; [reflexivity|]. split; [reflexivity|]. right. assumption.
Qed.

(** What a payment of [n] $iPROVE out of escrow does to the tokens. *)
Record paid_out_of (K : staking_env) (b b' : bank) (n : N) : Prop := {
  po_allow : allow_ok K (bk_prove b) -> allow_ok K (bk_prove b');
  po_total : i_total_ok b -> i_total_ok b';
  po_self : tk_balance (bk_iprove b') (ke_self K) + n = tk_balance (bk_iprove b) (ke_self K);
  po_other : forall x, x <> ke_self K -> tk_balance (bk_iprove b') x = tk_balance (bk_iprove b) x;
  po_shares : same_shares b b';
  po_supply : i_total_ok b -> bk_isupply b' + n = bk_isupply b;
  po_price : i_total_ok b -> i_price K b b'
}.

Lemma paid_refl K b : paid_out_of K b b 0.
Proof.
  split; [auto|auto|lia|reflexivity|split; [reflexivity|split; reflexivity]|lia|intros _; apply price_refl].
Qed.

Lemma paid_trans K b b1 b2 n m : paid_out_of K b b1 n -> paid_out_of K b1 b2 m -> paid_out_of K b b2 (n + m).
Proof.
  intros [A1 A2 A3 A4 (A5 & A6 & A7) A8 A9] [B1 B2 B3 B4 (B5 & B6 & B7) B8 B9]. split.
  - auto.
  - auto.
  - lia.
  - intros x Hx. rewrite B4, A4 by exact Hx. reflexivity.
  - repeat split; congruence.
  - intros H. pose proof (A8 H). pose proof (B8 (A2 H)). lia.
  - intros H. exact (price_trans _ _ _ _ _ _ (A9 H) (B9 (A2 H))).
Qed.

Lemma price_more A S A' A'' S' : price_le A S A' S' -> A' <= A'' -> price_le A S A'' S'.
Proof. unfold price_le. intros. nia. Qed.

Lemma redeem_paid K n a b b' prove :
  i_redeem K n a (ke_self K) b = Ok (b', prove) -> paid_out_of K b b' n.
Proof.
  intros H. apply i_redeem_ok in H as (Htr & Hle & Ha & Hsup & Hbal & Htot & Hsame).
  apply transfer_ok in Htr as (Hal & Hle2 & Hbp). split.
  - apply allow_eq. exact Hal.
  - intros Ht. apply (Htot Ht).
  - rewrite Hbal, N.eqb_refl. lia.
  - intros x Hx. rewrite Hbal. destruct (N.eqb_spec x (ke_self K)); [congruence|reflexivity].
  - exact Hsame.
  - intros Ht. destruct (Htot Ht). lia.
  - intros Ht. destruct (Htot Ht) as [_ Hs]. unfold i_price. rewrite Hsup.
    apply (price_more _ _ (i_assets K b - prove)).
    + rewrite Ha. apply price_redeem; [exact Hs|]. apply redeem_le_assets. exact Hs.
    + unfold i_assets. rewrite Hbp. destruct (ke_iprove K =? ke_iprove K) eqn:E; [lia|].
      rewrite N.eqb_refl in E. discriminate.
Qed.

Definition ev_iprove (ev : staking_event) : N := match ev with EvUnstake _ _ _ i => i | _ => 0 end.

Lemma pay_run_ok K a p done pool b evs pool' b' :
  pay_run K a p done pool b evs pool' b' ->
  let n := list_total ev_iprove evs in
  paid_out_of K b b' n /\ ep_escrow pool' + n = ep_escrow pool /\ ep_factor pool' = ep_factor pool /\
  length evs = length done /\
  Forall2 (fun c ev => exists prove i, ev = EvUnstake a p prove i /\ i <= claim_value (ep_factor pool) c) done evs.
Proof.
  induction 1 as [pool b|c rest pool b pool1 b1 prove ev evs pool' b' Hf _ IH]; cbv zeta.
  - cbn [list_total fold_right]. split; [apply paid_refl|]. split; [lia|]. split; [reflexivity|]. split; [reflexivity|constructor].
  - apply finish_request_ok in Hf as (Hc & -> & He & Hfac & Hb). cbv zeta in IH.
    destruct IH as (IH1 & IH2 & IH3 & IH4 & IH5).
    set (paid := N.min (claim_value (ep_factor pool) c) (ep_escrow pool)) in *.
    cbn [list_total fold_right ev_iprove length]. fold (list_total ev_iprove evs).
    split; [|split; [|split; [|split]]].
    + apply (paid_trans _ _ b1); [|exact IH1]. destruct Hb as [(-> & -> & _)|Hb]; [apply paid_refl|].
      eapply redeem_paid. exact Hb.
    + lia.
    + congruence.
    + lia.
    + constructor.
      * exists prove, paid. split; [reflexivity|]. lia.
      * rewrite Hfac in IH5. exact IH5.
Qed.

Lemma finish_unstake_ok K x a s s' evs : k_finish_unstake K x a s = Ok (s', evs) ->
  let p := bound_to s a in
  p <> 0 /\ claims_of s a <> [] /\ pending_of s p = 0 /\
  exists done left pool b,
    pay_run K a p done (pool_of s p) (sk_bank s) evs pool b /\
    Forall (matured K (kx_time x)) done /\ Forall (fun c => ~ matured K (kx_time x) c) left /\
    Permutation (claims_of s a) (done ++ left) /\
    let pool' := if (ep_escrow pool =? 0) && negb (ep_factor pool =? slash_scalar)
                 then EscrowPool (ep_escrow pool) slash_scalar else pool in
    let s1 := sk_set_claims a left (sk_set_pool p pool' (sk_set_bank b s)) in
    s' = if (stake_of b a =? 0) && (length left =? 0)%nat then sk_set_bound a 0 s1 else s1.
Proof.
  unfold k_finish_unstake, no_slash_requests. cbv zeta. intros H. sk_inv. subst.
  split; [lia|]. split; [intros E; rewrite E in *; discriminate|].
  split; [match goal with H : (0 <? _) = false |- _ => apply N.ltb_ge in H; lia end|].
  match goal with H : finish_loop _ _ _ _ _ _ _ _ _ = Ok _ |- _ =>
    apply finish_loop_ok in H as (done & Hrun & Hd & Hl & Hp); [|lia|intros j c Hj; lia] end.
  do 4 eexists. split; [exact Hrun|]. split; [exact Hd|]. split; [exact Hl|]. split; [exact Hp|reflexivity].
Qed.

Lemma inv_finish_unstake K x a s s' evs :
  stk_inv K s -> k_finish_unstake K x a s = Ok (s', evs) -> stk_inv K s'.
Proof.
  intros Hinv H. pose proof Hinv as [HK Hal Ht He Hpr Hb Hu Hsh [Hst1 Hst2] Hpe Hc Hpo].
  apply finish_unstake_ok in H. cbv zeta in H. set (p := bound_to s a) in *.
  destruct H as (Hp & _ & _ & done & left & pool & b & Hrun & _ & _ & Hperm & ->).
  apply pay_run_ok in Hrun. cbv zeta in Hrun. destruct Hrun as (Hpaid & Hesc & Hfac & _ & _).
  set (n := list_total ev_iprove evs) in *.
  set (pool' := if (ep_escrow pool =? 0) && negb (ep_factor pool =? slash_scalar)
                then EscrowPool (ep_escrow pool) slash_scalar else pool).
  assert (Hpe' : ep_escrow pool' = ep_escrow pool) by (unfold pool'; now destruct (_ && _)).
  assert (Hpf' : ep_factor pool' <= slash_scalar).
  { unfold pool'. destruct (_ && _); [reflexivity|]. rewrite Hfac. apply Hpo. }
  set (s1 := sk_set_claims a left (sk_set_pool p pool' (sk_set_bank b s))).
  destruct Hpaid as [P1 P2 P3 P4 (P5 & P6 & P7) _ _].
  assert (Hinv1 : stk_inv K s1).
  { split; unfold s1; sk_simpl.
    - exact HK.
    - auto.
    - auto.
    - pose proof (all_escrow_set (sk_set_bank b s) p pool') as E.
      change (pool_of (sk_set_bank b s) p) with (pool_of s p) in E.
      change (all_escrow (sk_set_bank b s)) with (all_escrow s) in E.
      unfold all_escrow in *. sk_simpl. lia.
    - exact Hpr.
    - exact Hb.
    - intros y Hy. change (bound_to s y = 0) in Hy. destruct (Hu y Hy) as [U1 U2]. rewrite claims_set.
      unfold stake_of in *. rewrite P6. destruct (N.eqb_spec y a) as [->|]; [fold p in Hy; congruence|auto].
    - intros q. rewrite stakes_on_sum. sk_simpl. rewrite P6. unfold shares_of. rewrite P5.
      rewrite <- stakes_on_sum. apply Hsh.
    - rewrite P6, P7. auto.
    - exact Hpe.
    - intros y c. rewrite claims_set. destruct (N.eqb_spec y a) as [->|]; [|apply Hc].
      intros Hin. apply (Hc a). rewrite Hperm. apply elem_of_app. auto.
    - intros q. change (ep_factor (pool_of (sk_set_pool p pool' (sk_set_bank b s)) q) <= slash_scalar).
      rewrite pool_set. destruct (q =? p); [exact Hpf'|apply Hpo]. }
  destruct ((stake_of b a =? 0) && (length left =? 0)%nat) eqn:Hz; [|exact Hinv1].
  apply andb_true_iff in Hz as [Hz1 Hz2]. apply N.eqb_eq in Hz1. apply Nat.eqb_eq in Hz2.
  destruct left; [|discriminate].
  destruct Hinv1 as [HK' Hal' Ht' He' Hpr' Hb' Hu' Hsh' Hst' Hpe1 Hc' Hpo']. split; sk_simpl; try assumption.
  - intros y. rewrite bound_set. destruct (y =? a); [congruence|]. apply Hb'.
  - intros y. rewrite bound_set. destruct (N.eqb_spec y a) as [->|]; [|apply Hu']. intros _. split.
    + exact Hz1.
    + change (claims_of s1 a = []). unfold s1. rewrite claims_set. now rewrite N.eqb_refl.
  - intros q. rewrite stakes_on_sum. sk_simpl. rewrite stakes_sum_bind by exact Hz1.
    rewrite <- stakes_on_sum. apply Hsh'.
Qed.

(** ** Slashing *)

Lemma slash_at_ok s p i c : slash_at s p i = Ok c -> slashes_of s p !! N.to_nat i = Some c.
Proof. unfold slash_at. destruct (_ !! _); [intros [= <-]; reflexivity|discriminate]. Qed.

Lemma filter_insert (l : list slash_claim) i c c' :
  l !! i = Some c -> unresolved c = true -> unresolved c' = false ->
  S (length (List.filter unresolved (<[i := c']> l))) = length (List.filter unresolved l).
Proof.
  intros H Hc Hc'. apply elem_of_list_split_length in H as (l1 & l2 & -> & ->).
  replace (length l1) with (length l1 + 0)%nat by lia. rewrite insert_app_r.
  change (<[0%nat:=c']> (c :: l2)) with (c' :: l2). rewrite !List.filter_app. cbn [List.filter]. rewrite Hc, Hc'.
  rewrite !app_length. cbn [length]. lia.
Qed.

Lemma filter_le (l : list slash_claim) : (length (List.filter unresolved l) <= length l)%nat.
Proof. induction l as [|x l IH]; cbn [List.filter length]; [lia|]. destruct (unresolved x); cbn [length]; lia. Qed.

Lemma inv_slashes K s p l n :
  stk_inv K s -> n = N.of_nat (length (List.filter unresolved l)) -> N.of_nat (length l) <= two64 ->
  stk_inv K (sk_set_slashes p l n s).
Proof.
  intros [HK Hal Ht He Hpr Hb Hu Hsh Hst Hpe Hc Hpo] -> Hl. split; sk_simpl; try assumption.
  intros q. rewrite pending_set, slashes_set. destruct (q =? p); [auto|apply Hpe].
Qed.

Lemma inv_resolve K s p i c :
  stk_inv K s -> slashes_of s p !! N.to_nat i = Some c -> sc_resolved c = false -> stk_inv K (resolve_slash p i c s).
Proof.
  intros Hinv Hc Hr. destruct (ki_pending K s Hinv p) as [Hp Hl]. unfold resolve_slash. apply inv_slashes; [exact Hinv| |].
  - pose proof (filter_insert (slashes_of s p) (N.to_nat i) c (SlashClaim (sc_amount c) (sc_time c) true) Hc) as E.
    unfold unresolved in E at 1 2. rewrite Hr in E. specialize (E eq_refl eq_refl).
    pose proof (filter_le (slashes_of s p)) as Hle. rewrite Hp.
    assert (two64 < two256) by reflexivity.
    replace (N.of_nat (length (List.filter unresolved (slashes_of s p))) + (two256 - 1))
      with (N.of_nat (length (List.filter unresolved (<[N.to_nat i:=SlashClaim (sc_amount c) (sc_time c) true]> (slashes_of s p)))) + 1 * two256) by lia.
    rewrite N.mod_add by discriminate. apply N.mod_small. lia.
  - rewrite insert_length. exact Hl.
Qed.

Lemma request_slash_ok K x p n s s' evs : k_request_slash K x p n s = Ok (s', evs) ->
  kx_sender x = ke_vapp K /\ p ∈ rg_provers (sk_registry s) /\ n <> 0 /\
  N.of_nat (length (slashes_of s p)) < two64 /\
  s' = sk_set_slashes p (slashes_of s p ++ [SlashClaim n (kx_time x) false]) ((pending_of s p + 1) mod two256) s /\
  evs = [EvSlashRequest p n (N.of_nat (length (slashes_of s p)))].
Proof.
  unfold k_request_slash. intros H. sk_inv. subst.
  match goal with H : is_prover _ _ = true |- _ => apply is_prover_in in H end.
  split; [lia|]. split; [assumption|]. split; [lia|]. split; [lia|]. auto.
Qed.

Lemma inv_request_slash K x p n s s' evs :
  stk_inv K s -> k_request_slash K x p n s = Ok (s', evs) -> stk_inv K s'.
Proof.
  intros Hinv H. apply request_slash_ok in H as (_ & _ & _ & Hlt & -> & _).
  destruct (ki_pending K s Hinv p) as [Hp Hl]. apply inv_slashes; [exact Hinv| |].
  - rewrite List.filter_app, app_length. cbn [List.filter unresolved sc_resolved negb length].
    assert (two64 + 1 < two256) by reflexivity. pose proof (filter_le (slashes_of s p)).
    rewrite N.mod_small; lia.
  - rewrite app_length. cbn [length]. lia.
Qed.

Lemma cancel_slash_ok K x p i s s' evs : k_cancel_slash K x p i s = Ok (s', evs) ->
  exists c, slashes_of s p !! N.to_nat i = Some c /\ sc_resolved c = false /\
    p ∈ rg_provers (sk_registry s) /\
    sc_time c + ke_cancel_period K + kx_voting_delay x + kx_voting_period x <= kx_time x /\
    s' = resolve_slash p i c s /\ evs = [EvSlashCancel p (sc_amount c) i].
Proof.
  unfold k_cancel_slash. intros H. sk_inv. subst.
  match goal with H : slash_at _ _ _ = Ok ?c |- _ => apply slash_at_ok in H; exists c end.
  match goal with H : is_prover _ _ = true |- _ => apply is_prover_in in H end.
  split; [assumption|]. split; [assumption|]. split; [assumption|]. split; [lia|]. auto.
Qed.

(** Burning [n] of the $iPROVE of [o]. *)
Record burned_from (K : staking_env) (o : N) (b b' : bank) (n : N) : Prop := {
  bf_allow : allow_ok K (bk_prove b) -> allow_ok K (bk_prove b');
  bf_total : i_total_ok b -> i_total_ok b';
  bf_owner : tk_balance (bk_iprove b') o + n = tk_balance (bk_iprove b) o;
  bf_other : forall x, x <> o -> tk_balance (bk_iprove b') x = tk_balance (bk_iprove b) x;
  bf_shares : same_shares b b';
  bf_supply : i_total_ok b -> bk_isupply b' + n = bk_isupply b;
  bf_price : i_total_ok b -> i_price K b b'
}.

Lemma slash_burned K o n b b' prove :
  slash_if_nonzero K o n b = Ok (b', prove) -> burned_from K o b b' n.
Proof.
  unfold slash_if_nonzero. destruct (N.eqb_spec n 0) as [->|Hn]; intros H; sk_inv; subst.
  - split; [auto|auto|lia|reflexivity|split; [reflexivity|split; reflexivity]|lia|intros _; apply price_refl].
  - apply i_slash_ok in H as (Htr & Hle & Ha & Hsup & Hbal & Htot & Hsame).
    apply burn_ok in Htr as (Hal & Hle2 & Hbp). split.
    + apply allow_eq. exact Hal.
    + intros Ht. apply (Htot Ht).
    + rewrite Hbal, N.eqb_refl. lia.
    + intros x Hx. rewrite Hbal. destruct (N.eqb_spec x o); [congruence|reflexivity].
    + exact Hsame.
    + intros Ht. destruct (Htot Ht). lia.
    + intros Ht. destruct (Htot Ht) as [_ Hs]. unfold i_price. rewrite Hsup. unfold i_assets at 2. rewrite Hbp, N.eqb_refl.
      fold (i_assets K b). rewrite Ha. apply price_redeem; [exact Hs|]. apply redeem_le_assets. exact Hs.
Qed.

Lemma slashed_factor_ok f total remaining f' :
  slashed_factor f total remaining = Ok f' ->
  (remaining = 0 /\ f' = 0) \/
  (remaining <> 0 /\ f' = (if f =? 0 then slash_scalar else f) * (remaining * slash_scalar / total) / slash_scalar).
Proof.
  unfold slashed_factor. destruct (N.eqb_spec remaining 0); intros H; sk_inv; [left; auto|right; auto].
Qed.

Lemma scalar_pos : slash_scalar <> 0.
Proof. discriminate. Qed.

Lemma slashed_factor_le f total remaining :
  total <> 0 -> remaining <= total -> f * (remaining * slash_scalar / total) / slash_scalar <= f.
Proof.
  intros Ht Hr. pose proof scalar_pos as Hs.
  assert (Hq : remaining * slash_scalar / total <= slash_scalar).
  { apply N.div_le_upper_bound; [exact Ht|]. nia. }
  apply N.div_le_upper_bound; [exact Hs|]. nia.
Qed.

(** Deactivation touches the registry of deactivated provers only. *)
Lemma deactivate_ok p s s' : deactivate_if_below_min p s = Ok s' ->
  exists d, s' = sk_set_registry (Registry (rg_provers (sk_registry s)) d (rg_owners (sk_registry s)) (rg_count (sk_registry s))) s.
Proof.
  unfold deactivate_if_below_min.
  assert (Hsame : exists d, s = sk_set_registry (Registry (rg_provers (sk_registry s)) d (rg_owners (sk_registry s)) (rg_count (sk_registry s))) s).
  { exists (rg_deactivated (sk_registry s)). destruct s as [? ? [] ? ? ? ? ? ?]. reflexivity. }
  destruct (is_deactivated s p); [intros [= <-]; exact Hsame|].
  destruct (_ =? 0); [intros [= <-]; exact Hsame|]. intros H. sk_inv.
  destruct (_ <? _); sk_inv; subst; [eexists; reflexivity|exact Hsame].
Qed.

Lemma inv_deactivated K s d :
  stk_inv K s ->
  stk_inv K (sk_set_registry (Registry (rg_provers (sk_registry s)) d (rg_owners (sk_registry s)) (rg_count (sk_registry s))) s).
Proof. intros []. split; sk_simpl; assumption. Qed.

(** What finishing a slash does. *)
Lemma finish_slash_ok K x p i s s' evs : k_finish_slash K x p i s = Ok (s', evs) ->
  let pool := pool_of s p in
  let total := v_assets p (sk_bank s) + ep_escrow pool in
  exists c d burned, slashes_of s p !! N.to_nat i = Some c /\ sc_resolved c = false /\
    kx_sender x = sk_owner s /\ p ∈ rg_provers (sk_registry s) /\
    let amount := N.min (sc_amount c) total in
    let from_escrow := amount * ep_escrow pool / total in
    let r := Registry (rg_provers (sk_registry s)) d (rg_owners (sk_registry s)) (rg_count (sk_registry s)) in
    evs = [EvSlash p burned amount i] /\
    ((amount = 0 /\ s' = sk_set_registry r (resolve_slash p i c s)) \/
     exists b1 b2 f, amount <> 0 /\
       burned_from K (ke_self K) (sk_bank s) b1 from_escrow /\ burned_from K p b1 b2 (amount - from_escrow) /\
       slashed_factor (ep_factor pool) total (total - amount) = Ok f /\
       s' = sk_set_registry r (sk_set_pool p (EscrowPool (ep_escrow pool - from_escrow) f)
              (sk_set_bank b2 (resolve_slash p i c s)))).
Proof.
  unfold k_finish_slash. cbv zeta. intros H. sk_inv.
  match goal with H : slash_at _ _ _ = Ok ?c |- _ => apply slash_at_ok in H; rename c into c0 end.
  match goal with H : is_prover _ _ = true |- _ => apply is_prover_in in H end.
  set (total := v_assets p (sk_bank s) + ep_escrow (pool_of s p)) in *.
  assert ((if total <? sc_amount c0 then total else sc_amount c0) = N.min (sc_amount c0) total) as E
    by (destruct (N.ltb_spec total (sc_amount c0)); lia).
  rewrite E in *. set (amount := N.min (sc_amount c0) total) in *.
  match goal with H : deactivate_if_below_min _ _ = Ok _ |- _ => apply deactivate_ok in H as (d & ->) end.
  exists c0, d. eexists. split; [eassumption|]. split; [assumption|]. split; [lia|]. split; [assumption|].
  destruct (N.eqb_spec amount 0) as [E0|E0].
  - sk_inv. subst. split; [reflexivity|]. left. split; [exact E0|reflexivity].
  - sk_inv. subst. split; [reflexivity|]. right.
    repeat match goal with H : slash_if_nonzero _ _ _ _ = Ok _ |- _ => apply slash_burned in H end.
    do 3 eexists. split; [exact E0|]. split; [eassumption|]. split; [eassumption|]. split; [eassumption|reflexivity].
Qed.

Lemma from_escrow_le amount escrow total : amount <= total -> total <> 0 -> amount * escrow / total <= escrow.
Proof. intros H Ht. apply N.div_le_upper_bound; [exact Ht|]. nia. Qed.

Lemma inv_finish_slash K x p i s s' evs :
  stk_inv K s -> k_finish_slash K x p i s = Ok (s', evs) -> stk_inv K s'.
Proof.
  intros Hinv H. apply finish_slash_ok in H. cbv zeta in H.
  destruct H as (c & d & burned & Hc & Hr & _ & Hp & _ & H).
  pose proof (inv_resolve K s p i c Hinv Hc Hr) as Hinv1.
  set (total := v_assets p (sk_bank s) + ep_escrow (pool_of s p)) in *.
  set (amount := N.min (sc_amount c) total) in *.
  set (fe := amount * ep_escrow (pool_of s p) / total) in *.
  destruct H as [[_ ->]|(b1 & b2 & f & Ha & Hb1 & Hb2 & Hf & ->)].
  - apply (inv_deactivated K (resolve_slash p i c s) d Hinv1).
  - destruct (ki_provers K s Hinv p Hp) as (Hp0 & Hps & Hpi).
    destruct Hb1 as [A1 A2 A3 A4 (A5 & A6 & A7) _ _]. destruct Hb2 as [B1 B2 B3 B4 (B5 & B6 & B7) _ _].
    assert (Htot : total <> 0) by lia.
    assert (Hfe : fe <= ep_escrow (pool_of s p)) by (apply from_escrow_le; lia).
    assert (Hff : f <= slash_scalar).
    { apply slashed_factor_ok in Hf as [[_ ->]|[_ ->]]; [apply N.le_0_l|].
      etransitivity; [apply slashed_factor_le; lia|]. destruct (_ =? 0); [reflexivity|]. apply (ki_pool K s Hinv). }
    set (s1 := resolve_slash p i c s) in *.
    set (s2 := sk_set_pool p (EscrowPool (ep_escrow (pool_of s p) - fe) f) (sk_set_bank b2 s1)).
    assert (Hinv2 : stk_inv K s2); [|exact (inv_deactivated K s2 d Hinv2)].
    destruct Hinv1 as [HK Hal Ht He Hpr Hb Hu Hsh [Hst1 Hst2] Hpe Hcl Hpo].
    change (sk_bank s1) with (sk_bank s) in *. unfold s2. split; sk_simpl.
    + exact HK.
    + auto.
    + auto.
    + pose proof (all_escrow_set (sk_set_bank b2 s1) p (EscrowPool (ep_escrow (pool_of s p) - fe) f)) as E.
      change (pool_of (sk_set_bank b2 s1) p) with (pool_of s p) in E.
      change (all_escrow (sk_set_bank b2 s1)) with (all_escrow s1) in E.
      rewrite B4 by congruence. unfold all_escrow in *. sk_simpl. lia.
    + exact Hpr.
    + exact Hb.
    + intros y Hy. destruct (Hu y Hy) as [U1 U2]. split; [|exact U2]. unfold stake_of in *. rewrite B6, A6. exact U1.
    + intros q. rewrite stakes_on_sum. sk_simpl. rewrite B6, A6. unfold shares_of. rewrite B5, A5.
      exact (Hsh q).
    + rewrite B7, A7, B6, A6. auto.
    + exact Hpe.
    + exact Hcl.
    + intros q. change (ep_factor (pool_of (sk_set_pool p (EscrowPool (ep_escrow (pool_of s p) - fe) f) (sk_set_bank b2 s1)) q) <= slash_scalar).
      rewrite pool_set. destruct (q =? p); [exact Hff|apply Hpo].
Qed.

(** ** The other calls *)

Lemma inv_dispensing K s d : stk_inv K s -> stk_inv K (sk_set_dispensing d s).
Proof. intros []. split; sk_simpl; assumption. Qed.

Lemma dispense_ok K x n s s' evs : k_dispense K x n s = Ok (s', evs) ->
  exists available t, kx_sender x = dp_dispenser (sk_dispensing s) /\ max_dispense x (sk_dispensing s) = Ok available /\
    let d := sk_dispensing s in let amount := if n =? u256_max then available else n in
    amount <> 0 /\ amount <= available /\
    tk_transfer (bk_prove (sk_bank s)) (ke_self K) (ke_iprove K) amount = Ok t /\
    s' = sk_set_bank (bk_set_prove t (sk_bank s))
      (sk_set_dispensing (Dispensing (dp_dispenser d) (dp_rate d) (dp_since d) (dp_earned d) (dp_distributed d + amount)) s) /\
    evs = [EvDispense amount].
Proof.
  unfold k_dispense. cbv zeta. intros H. sk_inv. subst. do 2 eexists. split; [lia|]. split; [eassumption|].
  split; [lia|]. split; [lia|]. split; [eassumption|]. auto.
Qed.

Lemma reward_ok K p n s s' evs : k_reward K p n s = Ok (s', evs) ->
  p ∈ rg_provers (sk_registry s) /\ evs = [] /\
  exists b sh, i_deposit K (ke_vapp K) p n (sk_bank s) = Ok (b, sh) /\ s' = sk_set_bank b s.
Proof.
  unfold k_reward. intros H. sk_inv. subst.
  match goal with H : is_prover _ _ = true |- _ => apply is_prover_in in H end.
  split; [assumption|]. split; [reflexivity|]. do 2 eexists. split; [eassumption|reflexivity].
Qed.

(** The tokens after a reward. *)
Lemma reward_bank K p n b b' sh :
  stk_addresses_ok K -> allow_ok K (bk_prove b) -> i_deposit K (ke_vapp K) p n b = Ok (b', sh) ->
  allow_ok K (bk_prove b') /\ (i_total_ok b -> i_total_ok b') /\
  (forall x, tk_balance (bk_iprove b') x = tk_balance (bk_iprove b) x + if x =? p then sh else 0) /\
  bk_isupply b' = bk_isupply b + sh /\ same_shares b b' /\ i_price K b b'.
Proof.
  intros [Hs Hi Hd [Hv1 Hv2] _] Hal H.
  apply i_deposit_ok in H as (t & Htr & <- & _ & Hsh & Hsup & Hb1 & Ht1 & Hsame).
  destruct (transfer_from_allow K _ _ _ _ _ _ Hd Hal Htr) as (Hal1 & _ & _).
  apply transfer_from_ok in Htr as (_ & _ & _ & _ & Hbp).
  split; [exact Hal1|]. split; [exact Ht1|]. split; [exact Hb1|]. split; [exact Hsup|]. split; [exact Hsame|].
  unfold i_price. unfold i_assets at 2. rewrite Hbp. destruct (N.eqb_spec (ke_iprove K) (ke_vapp K)); [congruence|].
  rewrite N.eqb_refl. fold (i_assets K b). rewrite Hsup, Hsh. apply price_deposit.
Qed.

Lemma inv_reward K p n s s' evs : stk_inv K s -> k_reward K p n s = Ok (s', evs) -> stk_inv K s'.
Proof.
  intros Hinv H. pose proof Hinv as [HK Hal Ht He Hpr Hb Hu Hsh [Hst1 Hst2] Hpe Hc Hpo].
  apply reward_ok in H as (Hp & _ & b & sh & H & ->).
  destruct (Hpr p Hp) as (Hp0 & Hps & Hpi).
  destruct (reward_bank K p n _ b sh HK Hal H) as (R1 & R2 & R3 & R4 & (R5 & R6 & R7) & _).
  split; sk_simpl; try assumption.
  - auto.
  - rewrite R3. destruct (N.eqb_spec (ke_self K) p); [congruence|]. rewrite N.add_0_r. exact He.
  - intros a Ha. unfold stake_of. rewrite R6. exact (Hu a Ha).
  - intros q. rewrite stakes_on_sum. sk_simpl. unfold shares_of. rewrite R5, R6. exact (Hsh q).
  - rewrite R6, R7. auto.
Qed.

Lemma create_prover_ok K x bips s s' evs : k_create_prover K x bips s = Ok (s', evs) ->
  exists d n, let p := ke_create2 K (kx_sender x) n bips in
    ~ p ∈ rg_provers (sk_registry s) /\ evs = [] /\
    s' = sk_set_registry (Registry ({[p]} ∪ rg_provers (sk_registry s)) (rg_deactivated (sk_registry s)) d n) s.
Proof.
  unfold k_create_prover. cbv zeta. intros H. sk_inv. subst. do 2 eexists.
  split; [|split; [reflexivity|reflexivity]].
  match goal with H : is_prover _ _ = false |- _ => unfold is_prover in H; apply bool_decide_eq_false in H; exact H end.
Qed.

Lemma inv_create_prover K x bips s s' evs :
  stk_inv K s -> k_create_prover K x bips s = Ok (s', evs) -> stk_inv K s'.
Proof.
  intros Hinv H. pose proof Hinv as [HK Hal Ht He Hpr Hb Hu Hsh Hst Hpe Hc Hpo].
  apply create_prover_ok in H as (d & n & Hnew & _ & ->). split; sk_simpl; try assumption.
  - intros q. rewrite elem_of_union, elem_of_singleton. intros [->|Hq]; [|now apply Hpr].
    apply (sao_create2 K HK).
  - intros a Ha. apply elem_of_union. right. exact (Hb a Ha).
Qed.

(** ** The token *)

Lemma token_op_inv K s o t :
  stk_inv K s -> by_outsider K (KTokenOp o) -> run_token_op (bk_prove (sk_bank s)) o = Ok t ->
  allow_ok K t /\ i_assets K (sk_bank s) <= tk_balance t (ke_iprove K).
Proof.
  intros Hinv Ho Hr. pose proof (sao_distinct K (ki_addresses K s Hinv)) as Hd.
  pose proof (ki_allow K s Hinv) as Hal. unfold i_assets.
  destruct o as [by_ to amount|spender from to amount|owner spender amount|by_ amount|spender from amount|to amount];
    cbn [run_token_op by_outsider] in *.
  - apply transfer_ok in Hr as (Ha & _ & Hb). split; [eapply allow_eq; eassumption|].
    rewrite Hb. destruct Ho as [_ Ho]. destruct (N.eqb_spec (ke_iprove K) by_); [congruence|]. lia.
  - pose proof Hr as Hr'. apply (transfer_from_allow K) in Hr' as (H1 & H2 & _); [|exact Hd|exact Hal].
    split; [exact H1|]. apply transfer_from_ok in Hr as (_ & _ & _ & _ & Hb). rewrite Hb.
    destruct (N.eqb_spec (ke_iprove K) from) as [E|]; [rewrite (H2 (eq_sym E))|]; lia.
  - injection Hr as <-. split; [now apply approve_allow|reflexivity].
  - apply burn_ok in Hr as (Ha & _ & Hb). split; [eapply allow_eq; eassumption|].
    rewrite Hb. destruct Ho as [_ Ho]. destruct (N.eqb_spec (ke_iprove K) by_); [congruence|]. lia.
  - destruct (tk_spend _ _ _ _) as [t1|] eqn:Hs; [|discriminate].
    pose proof Hs as Hs'. apply (spend_allow K) in Hs' as (H1 & H2 & _); [|exact Hd|exact Hal].
    apply spend_ok in Hs as (Hbal & _). apply burn_ok in Hr as (Ha & _ & Hb).
    split; [eapply allow_eq; eassumption|]. rewrite Hb, (balances_eq _ _ _ Hbal).
    destruct (N.eqb_spec (ke_iprove K) from) as [E|]; [rewrite (H2 (eq_sym E))|]; lia.
  - injection Hr as <-. split; [exact Hal|]. rewrite mint_balance. lia.
Qed.

(** ** All calls *)

Lemma stake_call_ok K x p n s s' evs : k_stake K x p n s = Ok (s', evs) ->
  exists t, p ∈ rg_provers (sk_registry s) /\
    tk_transfer_from (bk_prove (sk_bank s)) (ke_self K) (kx_sender x) (ke_self K) n = Ok t /\
    stake_for K (kx_sender x) p n (sk_set_bank (bk_set_prove t (sk_bank s)) s) = Ok (s', evs).
Proof.
  unfold k_stake. intros H. sk_inv.
  match goal with H : is_prover _ _ = true |- _ => apply is_prover_in in H end.
  eexists. split; [assumption|]. split; eassumption.
Qed.

Lemma permit_stake_ok K x p from n s s' evs : k_permit_and_stake K x p from n s = Ok (s', evs) ->
  exists t1 t, p ∈ rg_provers (sk_registry s) /\
    (t1 = bk_prove (sk_bank s) \/ t1 = tk_approve (bk_prove (sk_bank s)) from p n) /\
    tk_transfer_from t1 p from (ke_self K) n = Ok t /\
    stake_for K from p n (sk_set_bank (bk_set_prove t (sk_bank s)) s) = Ok (s', evs).
Proof.
  unfold k_permit_and_stake. intros H. sk_inv.
  match goal with H : is_prover _ _ = true |- _ => apply is_prover_in in H end.
  do 2 eexists. split; [assumption|]. split; [|split; eassumption].
  match goal with H : (if ?b then _ else _) = Ok _ |- _ => destruct b; [left; congruence|];
    destruct (kx_permit_valid x); [right; congruence|discriminate] end.
Qed.

(** A stake call is: $PROVE arrives, without anything leaving the vault, and then [_stake]. *)
Lemma stake_arrives K x c s s' evs a p n :
  stk_inv K s -> by_outsider K (KAccepted x c evs s') ->
  (c = KStake p n /\ a = kx_sender x \/ c = KPermitAndStake p a n) ->
  staking_run K x c s = Ok (s', evs) ->
  exists t, p ∈ rg_provers (sk_registry s) /\ allow_ok K t /\
    i_assets K (sk_bank s) = tk_balance t (ke_iprove K) /\
    stake_for K a p n (sk_set_bank (bk_set_prove t (sk_bank s)) s) = Ok (s', evs).
Proof.
  intros Hinv [Ho1 Ho2] Hc H. pose proof (sao_distinct K (ki_addresses K s Hinv)) as Hd.
  pose proof (ki_allow K s Hinv) as Hal. unfold i_assets.
  destruct Hc as [[-> ->]| ->]; cbn [staking_run] in H.
  - apply stake_call_ok in H as (t & Hp & Ht & H). exists t. split; [exact Hp|].
    pose proof Ht as Ht'. apply (transfer_from_allow K) in Ht' as (H1 & _); [|exact Hd|exact Hal].
    split; [exact H1|]. split; [|exact H]. apply transfer_from_ok in Ht as (_ & _ & _ & _ & Hb). rewrite Hb.
    destruct Ho1. destruct (N.eqb_spec (ke_iprove K) (kx_sender x)); [congruence|].
    destruct (N.eqb_spec (ke_iprove K) (ke_self K)); [congruence|]. lia.
  - apply permit_stake_ok in H as (t1 & t & Hp & Ht1 & Ht & H). exists t. split; [exact Hp|].
    assert (Hal1 : allow_ok K t1) by (destruct Ht1 as [-> | ->]; [exact Hal|now apply approve_allow]).
    assert (Hb1 : tk_balance t1 (ke_iprove K) = tk_balance (bk_prove (sk_bank s)) (ke_iprove K))
      by (destruct Ht1 as [-> | ->]; reflexivity).
    pose proof Ht as Ht'. apply (transfer_from_allow K) in Ht' as (H1 & _); [|exact Hd|exact Hal1].
    split; [exact H1|]. split; [|exact H]. apply transfer_from_ok in Ht as (_ & _ & _ & _ & Hb). rewrite Hb.
    destruct Ho2. destruct (N.eqb_spec (ke_iprove K) a); [congruence|].
    destruct (N.eqb_spec (ke_iprove K) (ke_self K)); [congruence|]. lia.
Qed.

Lemma inv_call K x c s s' evs :
  stk_inv K s -> by_outsider K (KAccepted x c evs s') -> staking_run K x c s = Ok (s', evs) -> stk_inv K s'.
Proof.
  intros Hinv Ho H. destruct c; cbn [staking_run] in H.
  - destruct (stake_arrives K x (KStake p amount) s s' evs (kx_sender x) p amount Hinv Ho (or_introl (conj eq_refl eq_refl)) H)
      as (t & Hp & Hal & _ & Hs). exact (inv_stake_for K _ p amount _ s' evs (inv_prove K s t Hinv Hal) Hp Hs).
  - destruct (stake_arrives K x (KPermitAndStake p from amount) s s' evs from p amount Hinv Ho (or_intror eq_refl) H)
      as (t & Hp & Hal & _ & Hs). exact (inv_stake_for K _ p amount _ s' evs (inv_prove K s t Hinv Hal) Hp Hs).
  - eapply inv_request_unstake; eassumption.
  - eapply inv_finish_unstake; eassumption.
  - eapply inv_request_slash; eassumption.
  - apply cancel_slash_ok in H as (c & Hc & Hr & _ & _ & -> & _). now apply inv_resolve.
  - eapply inv_finish_slash; eassumption.
  - apply dispense_ok in H as (av & t & _ & _ & _ & _ & Ht & -> & _).
    apply (inv_prove K (sk_set_dispensing _ s)); [now apply inv_dispensing|].
    apply transfer_ok in Ht as (Ha & _). eapply allow_eq; [exact Ha|]. exact (ki_allow K s Hinv).
  - unfold k_set_dispenser in H. sk_inv. subst. now apply inv_dispensing.
  - unfold k_update_rate in H. sk_inv. subst. now apply inv_dispensing.
  - eapply inv_create_prover; eassumption.
  - eapply inv_reward; eassumption.
  - unfold k_transfer_ownership in H. sk_inv. subst. destruct Hinv. split; sk_simpl; assumption.
  - unfold k_renounce_ownership in H. sk_inv. subst. destruct Hinv. split; sk_simpl; assumption.
Qed.

Lemma inv_history K s log s' :
  stk_history K s log s' -> stk_inv K s -> Forall (by_outsider K) log -> stk_inv K s'.
Proof.
  induction 1 as [s|s x c s1 evs log s' Hr _ IH|s x c e log s' Hr _ IH|s o t log s' Hr _ IH]; intros Hinv Ho;
    [exact Hinv| | |]; apply Forall_cons in Ho as [Ho1 Ho2]; apply IH; try assumption.
  - eapply inv_call; eassumption.
  - apply inv_prove; [exact Hinv|]. apply (token_op_inv K s o t Hinv Ho1 Hr).
Qed.

Lemma inv_run K log s : stk_run K log s -> stk_inv K s.
Proof.
  intros [HK (prove & owner & governor & pa & dispenser & s0 & Ha & Hi & Hh) Ho].
  eapply inv_history; [exact Hh| |exact Ho]. eapply initial_inv; eassumption.
Qed.
