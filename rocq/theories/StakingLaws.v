(** Histories of the staking contract. *)
From Verif Require Export StakingUnstake.
From Coq Require Import Lia ZifyBool ZifyN ZifyNat.
Open Scope N_scope.

Lemma list_total_app {X} (f : X -> N) l l' : list_total f (l ++ l') = list_total f l + list_total f l'.
Proof. unfold list_total. induction l as [|x l IH]; cbn [app fold_right]; lia. Qed.
Lemma list_total_cons {X} (f : X -> N) x l : list_total f (x :: l) = f x + list_total f l.
Proof. reflexivity. Qed.
Lemma list_total_nil {X} (f : X -> N) : list_total f [] = 0.
Proof. reflexivity. Qed.
Lemma list_total_perm {X} (f : X -> N) l l' : Permutation l l' -> list_total f l = list_total f l'.
Proof. unfold list_total. induction 1; cbn [fold_right]; lia. Qed.
Lemma list_total_le {X} (f g : X -> N) l : (forall x, x ∈ l -> f x <= g x) -> list_total f l <= list_total g l.
Proof.
  unfold list_total. induction l as [|x l IH]; intros H; cbn [fold_right]; [lia|].
  pose proof (H x ltac:(left)). specialize (IH ltac:(intros y Hy; apply H; right; exact Hy)). lia.
Qed.

Ltac totals := cbn [events flat_map app]; rewrite ?app_nil_r, ?list_total_app, ?list_total_cons, ?list_total_nil.

Lemma pool_claims s a l p : pool_of (sk_set_claims a l s) p = pool_of s p.
Proof. reflexivity. Qed.
Lemma pool_bank s b p : pool_of (sk_set_bank b s) p = pool_of s p.
Proof. reflexivity. Qed.

(** ** Calls that leave stakes, claims and escrow alone *)

Definition quiet_event (ev : staking_event) : Prop :=
  match ev with EvSlashRequest _ _ _ | EvSlashCancel _ _ _ | EvDispense _ | EvStake _ _ _ _ _ => True | _ => False end.

Definition quiet (c : staking_call) : Prop :=
  match c with
  | KStake _ _ | KPermitAndStake _ _ _ | KRequestUnstake _ | KFinishUnstake _ | KFinishSlash _ _ => False
  | _ => True
  end.

Lemma quiet_ok K x c s s' evs :
  quiet c -> staking_run K x c s = Ok (s', evs) ->
  sk_claims s' = sk_claims s /\ sk_pools s' = sk_pools s /\ sk_bound s' = sk_bound s /\
  bk_stakes (sk_bank s') = bk_stakes (sk_bank s) /\ Forall quiet_event evs.
Proof.
  intros Hq H. destruct c; cbn [quiet staking_run] in *; try contradiction.
  - apply request_slash_ok in H as (_ & _ & _ & _ & -> & ->). sk_simpl. repeat (split; [reflexivity|]). now repeat constructor.
  - apply cancel_slash_ok in H as (c & _ & _ & _ & _ & -> & ->). sk_simpl. repeat (split; [reflexivity|]). now repeat constructor.
  - apply dispense_ok in H as (av & t & _ & _ & _ & _ & _ & -> & ->). sk_simpl. repeat (split; [reflexivity|]). now repeat constructor.
  - unfold k_set_dispenser in H. sk_inv. subst. sk_simpl. repeat (split; [reflexivity|]). constructor.
  - unfold k_update_rate in H. sk_inv. subst. sk_simpl. repeat (split; [reflexivity|]). constructor.
  - apply create_prover_ok in H as (d & n & _ & -> & ->). sk_simpl. repeat (split; [reflexivity|]). constructor.
  - apply reward_ok in H as (_ & -> & b & sh & H & ->). apply i_deposit_ok in H as (t & _ & _ & _ & _ & _ & _ & _ & Hs1 & Hs2 & Hs3).
    sk_simpl. repeat (split; [reflexivity|]). split; [exact Hs2|constructor].
  - unfold k_transfer_ownership in H. sk_inv. subst. sk_simpl. repeat (split; [reflexivity|]). constructor.
  - unfold k_renounce_ownership in H. sk_inv. subst. sk_simpl. repeat (split; [reflexivity|]). constructor.
Qed.

(** Staking changes the binding of an unbound staker, and nothing of claims and escrow. *)
Lemma stake_frame K a p n s s' evs :
  stake_for K a p n s = Ok (s', evs) ->
  sk_claims s' = sk_claims s /\ sk_pools s' = sk_pools s /\ Forall quiet_event evs /\
  (forall y, bound_to s' y = if y =? a then p else bound_to s y) /\ (bound_to s a = 0 \/ bound_to s a = p) /\ a <> 0.
Proof.
  intros H. apply stake_for_ok in H as (_ & _ & _ & _ & Hb & iprove & sh & b1 & b2 & _ & _ & _ & _ & Ha & _ & -> & ->).
  set (s1 := if bound_to s a =? 0 then sk_set_bound a p s else s).
  split; [|split; [|split; [now repeat constructor|split; [|split; [exact Hb|exact Ha]]]]].
  - sk_simpl. unfold s1. now destruct (bound_to s a =? 0).
  - sk_simpl. unfold s1. now destruct (bound_to s a =? 0).
  - intros y. change (bound_to s1 y = if y =? a then p else bound_to s y). unfold s1.
    destruct (N.eqb_spec (bound_to s a) 0) as [E|E]; [apply bound_set|].
    destruct (N.eqb_spec y a) as [->|]; [|reflexivity]. destruct Hb; congruence.
Qed.

(** Any stake call, as a stake after the arrival of $PROVE. *)
Lemma stake_call_frame K x c s s' evs :
  stk_inv K s -> by_outsider K (KAccepted x c evs s') ->
  match c with KStake _ _ | KPermitAndStake _ _ _ => True | _ => False end ->
  staking_run K x c s = Ok (s', evs) ->
  exists a p n t, p ∈ rg_provers (sk_registry s) /\ allow_ok K t /\
    i_assets K (sk_bank s) = tk_balance t (ke_iprove K) /\ outside K a /\
    stake_for K a p n (sk_set_bank (bk_set_prove t (sk_bank s)) s) = Ok (s', evs).
Proof.
  intros Hinv Ho Hc H. destruct c; try contradiction.
  - destruct (stake_arrives K x (KStake p amount) s s' evs (kx_sender x) p amount Hinv Ho (or_introl (conj eq_refl eq_refl)) H)
      as (t & Hp & Hal & Hi & Hs). exists (kx_sender x), p, amount, t. destruct Ho. auto.
  - destruct (stake_arrives K x (KPermitAndStake p from amount) s s' evs from p amount Hinv Ho (or_intror eq_refl) H)
      as (t & Hp & Hal & Hi & Hs). exists from, p, amount, t. destruct Ho. auto.
Qed.

(** ** Escrow accounting *)

Lemma quiet_requested p evs : Forall quiet_event evs -> list_total (ev_requested p) evs = 0.
Proof. induction 1 as [|ev evs H _ IH]; totals; [reflexivity|]. destruct ev; cbn [quiet_event ev_requested] in *; try contradiction; lia. Qed.
Lemma quiet_paid p evs : Forall quiet_event evs -> list_total (ev_paid p) evs = 0.
Proof. induction 1 as [|ev evs H _ IH]; totals; [reflexivity|]. destruct ev; cbn [quiet_event ev_paid] in *; try contradiction; lia. Qed.
Lemma quiet_is_request p evs : Forall quiet_event evs -> list_total (is_request p) evs = 0.
Proof. induction 1 as [|ev evs H _ IH]; totals; [reflexivity|]. destruct ev; cbn [quiet_event is_request] in *; try contradiction; lia. Qed.
Lemma quiet_is_unstake p evs : Forall quiet_event evs -> list_total (is_unstake p) evs = 0.
Proof. induction 1 as [|ev evs H _ IH]; totals; [reflexivity|]. destruct ev; cbn [quiet_event is_unstake] in *; try contradiction; lia. Qed.

(** Sums over the events of a finished unstake. *)
Lemma paid_events (a p : N) (R : unstake_claim -> N -> Prop) done evs :
  Forall2 (fun c ev => exists prove i, ev = EvUnstake a p prove i /\ R c i) done evs ->
  (forall q, list_total (ev_requested q) evs = 0) /\ (forall q, list_total (ev_slashed q) evs = 0) /\
  (forall q, list_total (ev_paid q) evs = if q =? p then list_total ev_iprove evs else 0) /\
  (forall b, list_total (is_request b) evs = 0) /\
  (forall b, list_total (is_unstake b) evs = if b =? a then N.of_nat (length done) else 0) /\
  list_total ev_dispensed evs = 0.
Proof.
  induction 1 as [|c ev done evs (prove & i & -> & _) _ (I1 & I2 & I3 & I4 & I5 & I6)].
  - repeat match goal with |- _ /\ _ => split end; intros; try reflexivity; now destruct (_ =? _).
  - repeat match goal with |- _ /\ _ => split end; intros; totals;
      cbn [ev_requested ev_slashed ev_paid is_request is_unstake ev_iprove ev_dispensed length].
    + now rewrite I1.
    + now rewrite I2.
    + rewrite I3. rewrite (N.eqb_sym p q). destruct (q =? p); lia.
    + now rewrite I4.
    + rewrite I5. rewrite (N.eqb_sym a b). destruct (b =? a); lia.
    + now rewrite I6.
Qed.

Lemma pool_after_finish s1 b a : forall P : bool,
  sk_pools (if P then sk_set_bound a b s1 else s1) = sk_pools s1 /\
  sk_claims (if P then sk_set_bound a b s1 else s1) = sk_claims s1 /\
  sk_bank (if P then sk_set_bound a b s1 else s1) = sk_bank s1.
Proof. intros [|]; auto. Qed.

(** One accepted call. *)
Lemma escrow_step K x c s s' evs p :
  stk_inv K s -> by_outsider K (KAccepted x c evs s') -> staking_run K x c s = Ok (s', evs) ->
  exists burned, burned <= list_total (ev_slashed p) evs /\
    ep_escrow (pool_of s p) + list_total (ev_requested p) evs
    = ep_escrow (pool_of s' p) + list_total (ev_paid p) evs + burned.
Proof.
  intros Hinv Ho H.
  assert (Hstill : sk_pools s' = sk_pools s -> Forall quiet_event evs ->
    exists burned, burned <= list_total (ev_slashed p) evs /\
      ep_escrow (pool_of s p) + list_total (ev_requested p) evs
      = ep_escrow (pool_of s' p) + list_total (ev_paid p) evs + burned).
  { intros Hp Hq. exists 0. rewrite (quiet_requested p evs Hq), (quiet_paid p evs Hq). unfold pool_of. rewrite Hp. lia. }
  destruct c;
    try (match type of H with staking_run _ _ ?c _ = _ => destruct (quiet_ok K x c s s' evs I H) as (_ & Hp & _ & _ & Hq) end; exact (Hstill Hp Hq)).
  - match type of H with staking_run _ _ ?c _ = _ => destruct (stake_call_frame K x c s s' evs Hinv Ho I H) as (a & q & n & t & _ & _ & _ & _ & Hs) end.
    apply stake_frame in Hs as (_ & Hp & Hq & _). exact (Hstill Hp Hq).
  - match type of H with staking_run _ _ ?c _ = _ => destruct (stake_call_frame K x c s s' evs Hinv Ho I H) as (a & q & n & t & _ & _ & _ & _ & Hs) end.
    apply stake_frame in Hs as (_ & Hp & Hq & _). exact (Hstill Hp Hq).
  - apply request_unstake_ok in H. cbv zeta in H. destruct H as (_ & _ & _ & _ & _ & b2 & e & _ & -> & ->).
    exists 0. totals. cbn [ev_slashed ev_requested ev_paid]. set (q := bound_to s (kx_sender x)).
    split; [lia|].
    rewrite pool_claims, pool_set, pool_bank.
    rewrite (N.eqb_sym p q). destruct (N.eqb_spec q p) as [->|]; sk_simpl; lia.
  - apply finish_unstake_ok in H. cbv zeta in H. set (q := bound_to s staker) in *.
    destruct H as (_ & _ & _ & done & left & pool & b & Hrun & _ & _ & _ & ->).
    apply pay_run_ok in Hrun. cbv zeta in Hrun. destruct Hrun as (_ & Hesc & _ & _ & Hev).
    destruct (paid_events staker q (fun c i => i <= claim_value (ep_factor (pool_of s q)) c) done evs Hev)
      as (E1 & E2 & E3 & _).
    exists 0. rewrite E1, E2, E3. split; [lia|].
    match goal with |- context [pool_of (if ?P then sk_set_bound ?y ?z ?s1 else ?s1) p] =>
      replace (pool_of (if P then sk_set_bound y z s1 else s1) p) with (pool_of s1 p) by (destruct P; reflexivity) end.
    match goal with |- context [pool_of (sk_set_claims ?a0 ?l0 (sk_set_pool q ?np ?s1)) p] =>
      change (pool_of (sk_set_claims a0 l0 (sk_set_pool q np s1)) p) with (pool_of (sk_set_pool q np s1) p) end.
    rewrite pool_set. change (pool_of (sk_set_bank b s) p) with (pool_of s p).
    destruct (N.eqb_spec p q) as [E|E]; [rewrite E|lia].
    destruct ((ep_escrow pool =? 0) && negb (ep_factor pool =? slash_scalar)); sk_simpl; lia.
  - apply finish_slash_ok in H. cbv zeta in H. destruct H as (c & d & burned & _ & _ & _ & _ & -> & H).
    totals. cbn [ev_slashed ev_requested ev_paid].
    set (total := v_assets p0 (sk_bank s) + ep_escrow (pool_of s p0)) in *.
    destruct H as [[Ha ->]|(b1 & b2 & f & Ha & _ & _ & _ & ->)].
    + exists 0. split; [lia|].
      match goal with |- context [pool_of (sk_set_registry ?r (resolve_slash ?a0 ?a1 ?a2 s)) p] =>
        change (pool_of (sk_set_registry r (resolve_slash a0 a1 a2 s)) p) with (pool_of s p) end. lia.
    + set (amount := N.min (sc_amount c) total) in *.
      match goal with |- context [pool_of (sk_set_registry ?r ?s1) p] =>
        change (pool_of (sk_set_registry r s1) p) with (pool_of s1 p) end.
      rewrite pool_set.
      match goal with |- context [pool_of (sk_set_bank b2 ?s1) p] =>
        change (pool_of (sk_set_bank b2 s1) p) with (pool_of s p) end.
      rewrite (N.eqb_sym p p0). destruct (N.eqb_spec p0 p) as [->|]; [|exists 0; lia]. sk_simpl.
      assert (amount * ep_escrow (pool_of s p) / total <= ep_escrow (pool_of s p)) by (apply from_escrow_le; lia).
      assert (amount * ep_escrow (pool_of s p) / total <= amount).
      { apply N.div_le_upper_bound; [lia|]. unfold total. nia. }
      exists (amount * ep_escrow (pool_of s p) / total). lia.
Qed.

Lemma escrow_history K s log s' p :
  stk_history K s log s' -> stk_inv K s -> Forall (by_outsider K) log ->
  exists burned, burned <= list_total (ev_slashed p) (events log) /\
    ep_escrow (pool_of s p) + list_total (ev_requested p) (events log)
    = ep_escrow (pool_of s' p) + list_total (ev_paid p) (events log) + burned.
Proof.
  induction 1 as [s|s x c s1 evs log s' Hr _ IH|s x c e log s' Hr _ IH|s o t log s' Hr _ IH]; intros Hinv Ho.
  - exists 0. totals. lia.
  - apply Forall_cons in Ho as [Ho1 Ho2]. destruct (escrow_step K x c s s1 evs p Hinv Ho1 Hr) as (b1 & H1 & E1).
    destruct (IH (inv_call K x c s s1 evs Hinv Ho1 Hr) Ho2) as (b2 & H2 & E2).
    exists (b1 + b2). totals. fold (events log). lia.
  - apply Forall_cons in Ho as [_ Ho2]. destruct (IH Hinv Ho2) as (b2 & H2 & E2). exists b2. totals. exact (conj H2 E2).
  - apply Forall_cons in Ho as [Ho1 Ho2].
    destruct (IH (inv_prove K s t Hinv (proj1 (token_op_inv K s o t Hinv Ho1 Hr))) Ho2) as (b2 & H2 & E2).
    exists b2. totals. exact (conj H2 E2).
Qed.

(** ** Each request is finished at most once *)

Lemma claims_step K x c s s' evs a :
  stk_inv K s -> by_outsider K (KAccepted x c evs s') -> staking_run K x c s = Ok (s', evs) ->
  N.of_nat (length (claims_of s a)) + list_total (is_request a) evs
  = N.of_nat (length (claims_of s' a)) + list_total (is_unstake a) evs.
Proof.
  intros Hinv Ho H.
  assert (Hstill : sk_claims s' = sk_claims s -> Forall quiet_event evs ->
    N.of_nat (length (claims_of s a)) + list_total (is_request a) evs
    = N.of_nat (length (claims_of s' a)) + list_total (is_unstake a) evs).
  { intros Hp Hq. rewrite (quiet_is_request a evs Hq), (quiet_is_unstake a evs Hq). unfold claims_of. rewrite Hp. lia. }
  destruct c;
    try (match type of H with staking_run _ _ ?c _ = _ => destruct (quiet_ok K x c s s' evs I H) as (Hp & _ & _ & _ & Hq) end; exact (Hstill Hp Hq)).
  - match type of H with staking_run _ _ ?c _ = _ => destruct (stake_call_frame K x c s s' evs Hinv Ho I H) as (b & q & n & t & _ & _ & _ & _ & Hs) end.
    apply stake_frame in Hs as (Hp & _ & Hq & _). exact (Hstill Hp Hq).
  - match type of H with staking_run _ _ ?c _ = _ => destruct (stake_call_frame K x c s s' evs Hinv Ho I H) as (b & q & n & t & _ & _ & _ & _ & Hs) end.
    apply stake_frame in Hs as (Hp & _ & Hq & _). exact (Hstill Hp Hq).
  - apply request_unstake_ok in H. cbv zeta in H. destruct H as (_ & _ & _ & _ & _ & b2 & e & _ & -> & ->).
    rewrite claims_set. totals. cbn [is_request is_unstake].
    match goal with |- context [claims_of (sk_set_pool ?q ?np (sk_set_bank b2 s)) a] =>
      change (claims_of (sk_set_pool q np (sk_set_bank b2 s)) a) with (claims_of s a) end.
    rewrite (N.eqb_sym a). destruct (N.eqb_spec (kx_sender x) a) as [->|]; [|lia].
    rewrite app_length. cbn [length]. lia.
  - apply finish_unstake_ok in H. cbv zeta in H. set (q := bound_to s staker) in *.
    destruct H as (_ & _ & _ & done & left & pool & b & Hrun & _ & _ & Hperm & ->).
    apply pay_run_ok in Hrun. cbv zeta in Hrun. destruct Hrun as (_ & _ & _ & _ & Hev).
    destruct (paid_events staker q (fun c i => i <= claim_value (ep_factor (pool_of s q)) c) done evs Hev)
      as (_ & _ & _ & E4 & E5 & _).
    rewrite E4, E5.
    match goal with |- context [claims_of (if ?P then sk_set_bound ?y ?z ?s1 else ?s1) a] =>
      replace (claims_of (if P then sk_set_bound y z s1 else s1) a) with (claims_of s1 a) by (destruct P; reflexivity) end.
    rewrite claims_set.
    match goal with |- context [claims_of (sk_set_pool ?q0 ?np (sk_set_bank b s)) a] =>
      change (claims_of (sk_set_pool q0 np (sk_set_bank b s)) a) with (claims_of s a) end.
    destruct (N.eqb_spec a staker) as [->|]; [|lia]. rewrite (Permutation_length Hperm), app_length. lia.
  - apply finish_slash_ok in H. cbv zeta in H. destruct H as (c & d & burned & _ & _ & _ & _ & -> & H).
    totals. cbn [is_request is_unstake].
    destruct H as [[Ha ->]|(b1 & b2 & f & Ha & _ & _ & _ & ->)]; unfold claims_of; sk_simpl; lia.
Qed.

Lemma claims_history K s log s' a :
  stk_history K s log s' -> stk_inv K s -> Forall (by_outsider K) log ->
  N.of_nat (length (claims_of s a)) + list_total (is_request a) (events log)
  = N.of_nat (length (claims_of s' a)) + list_total (is_unstake a) (events log).
Proof.
  induction 1 as [s|s x c s1 evs log s' Hr _ IH|s x c e log s' Hr _ IH|s o t log s' Hr _ IH]; intros Hinv Ho.
  - totals. lia.
  - apply Forall_cons in Ho as [Ho1 Ho2]. pose proof (claims_step K x c s s1 evs a Hinv Ho1 Hr) as E1.
    pose proof (IH (inv_call K x c s s1 evs Hinv Ho1 Hr) Ho2) as E2. totals. fold (events log). lia.
  - apply Forall_cons in Ho as [_ Ho2]. totals. exact (IH Hinv Ho2).
  - apply Forall_cons in Ho as [Ho1 Ho2]. totals.
    exact (IH (inv_prove K s t Hinv (proj1 (token_op_inv K s o t Hinv Ho1 Hr))) Ho2).
Qed.

(** ** Each slash request is resolved at most once *)

Definition resolved_at (s : staking) (p i : N) : bool :=
  match slashes_of s p !! N.to_nat i with Some c => sc_resolved c | None => false end.

Lemma insert_resolved s p i c q j :
  slashes_of s p !! N.to_nat i = Some c ->
  resolved_at (resolve_slash p i c s) q j = resolved_at s q j || (p =? q) && (i =? j).
Proof.
  intros Hc. unfold resolved_at, resolve_slash. rewrite slashes_set. rewrite (N.eqb_sym p q).
  destruct (N.eqb_spec q p) as [->|]; cbn [andb]; [|now rewrite orb_false_r].
  destruct (N.eqb_spec i j) as [->|Hij].
  - rewrite list_lookup_insert by (eapply lookup_lt_Some; exact Hc). now rewrite orb_true_r.
  - rewrite list_lookup_insert_ne by lia. now rewrite orb_false_r.
Qed.

Lemma resolved_step K x c s s' evs p i :
  stk_inv K s -> by_outsider K (KAccepted x c evs s') -> staking_run K x c s = Ok (s', evs) ->
  (resolves p i (KAccepted x c evs s') = 1 /\ resolved_at s p i = false /\ resolved_at s' p i = true) \/
  (resolves p i (KAccepted x c evs s') = 0 /\ (resolved_at s p i = true -> resolved_at s' p i = true)).
Proof.
  intros Hinv Ho H.
  assert (Hsame : sk_slashes s' = sk_slashes s -> resolved_at s p i = true -> resolved_at s' p i = true).
  { intros E. unfold resolved_at, slashes_of. rewrite E. auto. }
  assert (Hres : forall q j c0, slashes_of s q !! N.to_nat j = Some c0 -> sc_resolved c0 = false ->
    resolved_at s' p i = resolved_at (resolve_slash q j c0 s) p i ->
    ((if (q =? p) && (j =? i) then 1 else 0) = 1 /\ resolved_at s p i = false /\ resolved_at s' p i = true) \/
    ((if (q =? p) && (j =? i) then 1 else 0) = 0 /\ (resolved_at s p i = true -> resolved_at s' p i = true))).
  { intros q j c0 Hc Hr E. rewrite E, (insert_resolved s q j c0 p i Hc).
    destruct ((q =? p) && (j =? i)) eqn:Hqj.
    - left. apply andb_true_iff in Hqj as [H1 H2]. apply N.eqb_eq in H1, H2. subst. split; [reflexivity|].
      unfold resolved_at. rewrite Hc. split; [exact Hr|]. now rewrite orb_true_r.
    - right. split; [reflexivity|]. now rewrite orb_false_r. }
  destruct c; cbn [resolves]; cbn [staking_run] in H.
  - right. split; [reflexivity|]. apply Hsame.
    destruct (stake_call_frame K x (KStake p0 amount) s s' evs Hinv Ho I H) as (b & q & n & t & _ & _ & _ & _ & Hs).
    apply stake_for_ok in Hs as (_ & _ & _ & _ & _ & ? & ? & ? & ? & _ & _ & _ & _ & _ & _ & -> & _).
    sk_simpl. now destruct (_ =? 0).
  - right. split; [reflexivity|]. apply Hsame.
    destruct (stake_call_frame K x (KPermitAndStake p0 from amount) s s' evs Hinv Ho I H) as (b & q & n & t & _ & _ & _ & _ & Hs).
    apply stake_for_ok in Hs as (_ & _ & _ & _ & _ & ? & ? & ? & ? & _ & _ & _ & _ & _ & _ & -> & _).
    sk_simpl. now destruct (_ =? 0).
  - right. split; [reflexivity|]. apply Hsame. apply request_unstake_ok in H. cbv zeta in H.
    destruct H as (_ & _ & _ & _ & _ & b2 & e & _ & -> & _). reflexivity.
  - right. split; [reflexivity|]. apply Hsame. apply finish_unstake_ok in H. cbv zeta in H.
    destruct H as (_ & _ & _ & done & left & pool & b & _ & _ & _ & _ & ->). now destruct (_ && (length left =? 0)%nat).
  - right. split; [reflexivity|]. apply request_slash_ok in H as (_ & _ & _ & _ & -> & _).
    unfold resolved_at. rewrite slashes_set. destruct (N.eqb_spec p p0) as [->|]; [|auto].
    destruct (slashes_of s p0 !! N.to_nat i) as [c|] eqn:Hc; [|discriminate]. now rewrite (lookup_app_l_Some _ _ _ _ Hc).
  - apply cancel_slash_ok in H as (c & Hc & Hr & _ & _ & -> & _). exact (Hres _ _ c Hc Hr eq_refl).
  - apply finish_slash_ok in H. cbv zeta in H. destruct H as (c & d & burned & Hc & Hr & _ & _ & _ & H).
    apply (Hres _ _ c Hc Hr).
    destruct H as [[_ ->]|(b1 & b2 & f & _ & _ & _ & _ & ->)]; reflexivity.
  - right. split; [reflexivity|]. apply Hsame. apply dispense_ok in H as (av & t & _ & _ & _ & _ & _ & -> & _). reflexivity.
  - right. split; [reflexivity|]. apply Hsame. unfold k_set_dispenser in H. sk_inv. now subst.
  - right. split; [reflexivity|]. apply Hsame. unfold k_update_rate in H. sk_inv. now subst.
  - right. split; [reflexivity|]. apply Hsame. apply create_prover_ok in H as (d & n & _ & _ & ->). reflexivity.
  - right. split; [reflexivity|]. apply Hsame. apply reward_ok in H as (_ & _ & b & sh & _ & ->). reflexivity.
  - right. split; [reflexivity|]. apply Hsame. unfold k_transfer_ownership in H. sk_inv. now subst.
  - right. split; [reflexivity|]. apply Hsame. unfold k_renounce_ownership in H. sk_inv. now subst.
Qed.

Lemma resolved_history K s log s' p i :
  stk_history K s log s' -> stk_inv K s -> Forall (by_outsider K) log ->
  list_total (resolves p i) log <= if resolved_at s p i then 0 else 1.
Proof.
  induction 1 as [s|s x c s1 evs log s' Hr _ IH|s x c e log s' Hr _ IH|s o t log s' Hr _ IH]; intros Hinv Ho.
  - totals. lia.
  - apply Forall_cons in Ho as [Ho1 Ho2].
    pose proof (IH (inv_call K x c s s1 evs Hinv Ho1 Hr) Ho2) as E2. totals.
    destruct (resolved_step K x c s s1 evs p i Hinv Ho1 Hr) as [(-> & -> & E)|(-> & E)].
    + rewrite E in E2. lia.
    + destruct (resolved_at s p i); [rewrite (E eq_refl) in E2|destruct (resolved_at s1 p i)]; lia.
  - apply Forall_cons in Ho as [_ Ho2]. totals. exact (IH Hinv Ho2).
  - apply Forall_cons in Ho as [Ho1 Ho2]. totals.
    exact (IH (inv_prove K s t Hinv (proj1 (token_op_inv K s o t Hinv Ho1 Hr))) Ho2).
Qed.

(** ** Pending slash requests *)

Lemma pending_iff K s p : stk_inv K s -> (0 < pending_of s p <-> slash_pending s p).
Proof.
  intros Hinv. destruct (ki_pending K s Hinv p) as [Hp _]. rewrite Hp. unfold slash_pending.
  split.
  - intros H. destruct (List.filter unresolved (slashes_of s p)) as [|c l] eqn:E; [cbn in H; lia|].
    assert (Hin : In c (List.filter unresolved (slashes_of s p))) by (rewrite E; left; reflexivity).
    apply filter_In in Hin as [H1 H2]. exists c. split; [now apply elem_of_list_In|].
    unfold unresolved in H2. now destruct (sc_resolved c).
  - intros (c & Hin & Hr). apply elem_of_list_In in Hin.
    assert (H : In c (List.filter unresolved (slashes_of s p))) by (apply filter_In; split; [exact Hin|]; unfold unresolved; now rewrite Hr).
    destruct (List.filter unresolved (slashes_of s p)); [contradiction|cbn [length]; lia].
Qed.
