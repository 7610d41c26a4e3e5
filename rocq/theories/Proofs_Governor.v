(** Proofs of the properties of governance. *)
From Verif Require Export GovernorRun StakingViews.
From Coq Require Import Lia ZifyBool ZifyN ZifyNat.
Open Scope N_scope.

(** ** Votes *)

Lemma votes_now G t0 w0 log w now a : run_inv G t0 w0 log w now -> get_votes (w_votes w) a = staked_votes w a.
Proof.
  intros Hri. pose proof (gi_votes _ _ _ _ _ _ (ri_ginv _ _ _ _ _ _ Hri)) as Hv. unfold get_votes.
  rewrite (latest_now now) by apply (vo_trace _ _ _ _ _ _ _ Hv). rewrite (vo_votes _ _ _ _ _ _ _ Hv), N.leb_refl. reflexivity.
Qed.

Lemma C79_votes_proof G t0 w0 log w now a :
  forall (Hrun : gov_run G t0 w0 log w now), get_votes (w_votes w) a = staked_votes w a.
Proof. intros Hr. apply run_ok in Hr. eapply votes_now; eassumption. Qed.

Lemma C79_past_proof G t0 w0 log w now a t :
  forall (Hrun : gov_run G t0 w0 log w now) (Hpast : t < now),
  get_past_votes now (w_votes w) a t = Some (staked_votes (world_at w0 log t) a) /\
  get_past_supply now (w_votes w) t = Some (iprove_supply (world_at w0 log t)).
Proof.
  intros Hr Ht. apply run_ok in Hr. pose proof (gi_time _ _ _ _ _ _ (ri_ginv _ _ _ _ _ _ Hr)) as Hn.
  destruct (past_votes _ _ _ _ _ _ t a Hr Ht) as (E1 & E2 & _). unfold get_past_votes, get_past_supply.
  rewrite clock_small by lia. destruct (N.ltb_spec t now); [|lia]. now rewrite E1, E2.
Qed.

(** Sums over lists. *)
Lemma total_ext {X} (f g : X -> N) l : (forall x, x ∈ l -> f x = g x) -> list_total f l = list_total g l.
Proof.
  induction l as [|a l IH]; intros H; [reflexivity|]. rewrite !list_total_cons, (H a) by constructor.
  rewrite IH; [reflexivity|]. intros x Hx. apply H. now constructor.
Qed.

Lemma total_insert (m : gmap N N) k v l :
  m !! k = None -> NoDup l -> (v <> 0 -> k ∈ l) ->
  list_total (fun a => default 0 (<[k := v]> m !! a)) l = v + list_total (fun a => default 0 (m !! a)) l.
Proof.
  intros Hk. induction l as [|a l IH]; intros Hn Hin.
  - destruct (N.eq_dec v 0) as [->|Hv]; [reflexivity|]. specialize (Hin Hv). apply elem_of_nil in Hin as [].
  - rewrite !list_total_cons. apply NoDup_cons in Hn as [Ha Hn]. destruct (N.eq_dec a k) as [->|Hne].
    + rewrite lookup_insert, Hk. cbn [default]. rewrite (total_ext _ (fun a => default 0 (m !! a)) l); [unfold default, from_option, id; lia|].
      intros x Hx. rewrite lookup_insert_ne; [reflexivity|]. intros ->. contradiction.
    + rewrite lookup_insert_ne by congruence. rewrite IH; [lia|exact Hn|].
      intros Hv. specialize (Hin Hv). apply elem_of_cons in Hin as [?|?]; [congruence|assumption].
Qed.

Lemma total_listed (m : gmap N N) : forall l, NoDup l -> (forall a, default 0 (m !! a) <> 0 -> a ∈ l) ->
  list_total (fun a => default 0 (m !! a)) l = map_total (fun _ n => n) m.
Proof.
  induction m as [|k v m Hk IH] using map_ind; intros l Hn Hl.
  - unfold map_total. rewrite map_fold_empty. induction l as [|a l IHl]; [reflexivity|].
    rewrite list_total_cons, lookup_empty. cbn [default]. apply NoDup_cons in Hn as [_ Hn]. rewrite IHl; auto.
    intros b. rewrite lookup_empty. cbn. congruence.
  - rewrite map_total_fresh by exact Hk. rewrite total_insert; [|exact Hk|exact Hn|].
    + rewrite IH; [reflexivity|exact Hn|]. intros a Ha. destruct (N.eq_dec a k) as [->|Hne]; [rewrite Hk in Ha; destruct Ha; reflexivity|].
      apply Hl. rewrite lookup_insert_ne by congruence. exact Ha.
    + intros Hv. apply Hl. rewrite lookup_insert. exact Hv.
Qed.

Lemma C79_total_proof G t0 w0 log w now :
  forall (Hrun : gov_run G t0 w0 log w now),
  list_total (get_votes (w_votes w)) (elements (rg_provers (sk_registry (w_staking w)))) + all_escrow (w_staking w)
  = iprove_supply w.
Proof.
  intros Hr. apply run_ok in Hr. pose proof (ri_ginv _ _ _ _ _ _ Hr) as Hg. pose proof (gi_stk _ _ _ _ _ _ Hg) as Hk.
  rewrite (total_ext _ (fun a => default 0 (tk_balances (bk_iprove (bank_of w)) !! a))).
  2:{ intros a Ha. apply elem_of_elements in Ha. rewrite (votes_now _ _ _ _ _ _ a Hr). unfold staked_votes.
      rewrite bool_decide_true by exact Ha. reflexivity. }
  unfold iprove_supply. destruct (ki_total _ _ Hk) as [-> _]. rewrite <- (ki_escrow _ _ Hk). unfold tk_total.
  destruct (not_ends _ _ Hk) as [_ Hself].
  rewrite <- (total_listed _ (ke_self (ge_staking G) :: elements (provers w))).
  - rewrite list_total_cons. unfold tk_balance. lia.
  - apply NoDup_cons. split; [rewrite elem_of_elements; exact Hself|apply NoDup_elements].
  - intros a Ha. apply elem_of_cons. destruct (N.eq_dec a (ke_self (ge_staking G))) as [?|Hne]; [now left|right].
    apply elem_of_elements. destruct (decide (a ∈ provers w)) as [?|Hn]; [assumption|].
    destruct Ha. exact (gi_holders _ _ _ _ _ _ Hg a Hne Hn).
Qed.

Lemma C79_unimpeded_proof G t0 w0 log w now x c :
  forall (Hrun : gov_run G t0 w0 log w now) (Htime : kx_time x = now) (Hby : by_anyone G w x (WStaking c)),
  match staking_run (ge_staking G)
          (StakingCtx (kx_sender x) now (gv_delay (w_governor w)) (gv_period (w_governor w)) (kx_permit_valid x) (kx_vapp_accepts x))
          c (w_staking w) with
  | Ok (s, _) => exists v, world_run G x (WStaking c) w = Ok (World s v (w_governor w))
  | Err e => world_run G x (WStaking c) w = Err (GStaking e)
  end.
Proof.
  intros Hr Ht [(_ & Ho & _) Hc]. apply run_ok in Hr.
  pose proof (staking_step_ok _ _ _ _ _ x c w (ri_ginv _ _ _ _ _ _ Hr) Ht Ho Hc) as H. unfold ctx_in in H. rewrite Ht in H.
  destruct (staking_run _ _ _ _) as [[s evs]|e]; [|exact H]. destruct H as (v & E & _). exists v. exact E.
Qed.

Lemma C79_delegate_proof G t0 w0 log w now x d :
  forall (Hrun : gov_run G t0 w0 log w now) (Htime : kx_time x = now) (Hby : by_anyone G w x (WDelegate d)),
  exists v, world_run G x (WDelegate d) w = Ok (World (w_staking w) v (w_governor w)) /\
    forall a, get_votes v a = get_votes (w_votes w) a.
Proof.
  intros Hr Ht [(Ha0 & Ho & _ & Hnp) _]. apply run_ok in Hr. pose proof (ri_ginv _ _ _ _ _ _ Hr) as Hg.
  pose proof (gi_time _ _ _ _ _ _ Hg) as Hn. cbn [world_run]. rewrite clock_small by lia. rewrite Ht.
  assert (E0 : tk_balance (bk_iprove (sk_bank (w_staking w))) (kx_sender x) = 0)
    by (apply (gi_holders _ _ _ _ _ _ Hg); [apply Ho|exact Hnp]).
  rewrite E0.
  destruct (delegate_none _ now _ _ (provers w) (bank_of w) (w_votes w) (kx_sender x) d (gi_votes _ _ _ _ _ _ Hg) Ha0 (proj1 Ho) Hnp)
    as (v & Ev & _ & E1 & _).
  exists v. rewrite Ev. split; [reflexivity|]. intros a. unfold get_votes, votes_trace. now rewrite E1.
Qed.

(** ** Proposals *)

Lemma C80_record_proof G t0 w0 log w now id :
  forall (Hrun : gov_run G t0 w0 log w now),
  match gv_proposals (w_governor w) !! id with
  | Some p => described G w0 log id p
  | None => Forall (fun e => concerns G id e = false) log
  end.
Proof.
  intros Hr. apply run_ok in Hr. destruct (gv_proposals (w_governor w) !! id) as [p|] eqn:E.
  - apply (ri_some _ _ _ _ _ _ Hr id p E).
  - exact (ri_none _ _ _ _ _ _ Hr id E).
Qed.

Lemma counted_all w l : Forall (fun b => snd b <= 2) l ->
  counted w 0 l + counted w 1 l + counted w 2 l = list_total (staked_votes w) (map fst l).
Proof.
  unfold counted. induction 1 as [|[a k] l Hk _ IH]; [reflexivity|]. cbn [map fst snd] in *. rewrite !list_total_cons. cbn [fst snd].
  assert (k = 0 \/ k = 1 \/ k = 2) as [->|[->| ->] ] by lia; cbn [N.eqb Pos.eqb]; lia.
Qed.

Lemma staked_votes_sum K w l : stk_inv K (w_staking w) -> NoDup l -> list_total (staked_votes w) l <= iprove_supply w.
Proof.
  intros Hk Hn. unfold iprove_supply. destruct (ki_total _ _ Hk) as [-> _]. unfold tk_total.
  etransitivity; [|exact (listed_le_total (fun _ n => n) l (tk_balances (bk_iprove (bank_of w))) Hn)].
  clear Hn. induction l as [|a l IH]; [reflexivity|]. rewrite !list_total_cons.
  assert (staked_votes w a <= old_value (fun _ n => n) (tk_balances (bk_iprove (bank_of w))) a).
  { rewrite old_balance. unfold staked_votes. destruct (bool_decide _); lia. }
  lia.
Qed.

Lemma votes_total G t0 w0 log w now id p : run_inv G t0 w0 log w now ->
  gv_proposals (w_governor w) !! id = Some p ->
  pr_against p + pr_for p + pr_abstain p <= iprove_supply (world_at w0 log (pr_start p)).
Proof.
  intros Hri Hp. destruct (ri_some _ _ _ _ _ _ Hri id p Hp) as [[D1 D2 D3 D4 D5 D6 D7 D8 D9 D10 D11] _].
  rewrite D5, D6, D7, counted_all by exact D4. eapply staked_votes_sum; [apply (ri_stk _ _ _ _ _ _ Hri)|exact D2].
Qed.
Lemma C80_total_proof G t0 w0 log w now id p :
  forall (Hrun : gov_run G t0 w0 log w now) (Hp : gv_proposals (w_governor w) !! id = Some p),
  pr_against p + pr_for p + pr_abstain p <= iprove_supply (world_at w0 log (pr_start p)).
Proof. intros Hr Hp. apply run_ok in Hr. eapply votes_total; eassumption. Qed.

Lemma acting_iff G t0 w0 log w now x via : run_inv G t0 w0 log w now ->
  match acting w (kx_sender x) via with
  | Ok a => a = actor x via /\ may_act w x via
  | Err _ => ~ may_act w x via
  end.
Proof.
  intros Hri. pose proof (ri_ginv _ _ _ _ _ _ Hri) as Hg. destruct (gi_owners _ _ _ _ _ _ Hg) as [O1 O2 O3].
  destruct (not_ends _ _ (gi_stk _ _ _ _ _ _ Hg)) as [Hz _].
  unfold acting, may_act, actor. destruct via as [p|]; [|auto].
  destruct (is_prover (w_staking w) p) eqn:Ep; cbn [gv_require gv_bind].
  - apply is_prover_in in Ep. destruct (N.eqb_spec (default 0 (rg_owners (sk_registry (w_staking w)) !! kx_sender x)) p) as [E|E];
      cbn [gv_require gv_bind].
    + split; [reflexivity|]. destruct (rg_owners (sk_registry (w_staking w)) !! kx_sender x) as [q|]; cbn in E; [congruence|].
      subst p. contradiction.
    + intros H. rewrite H in E. cbn in E. congruence.
  - intros H. apply O1 in H. unfold is_prover in Ep. apply bool_decide_eq_false in Ep. contradiction.
Qed.

Lemma proposed_before G t0 w0 log w now id : run_inv G t0 w0 log w now ->
  match gv_proposals (w_governor w) !! id with
  | Some p => ~ Forall (fun e => proposes G id e = false) log
  | None => Forall (fun e => proposes G id e = false) log
  end.
Proof.
  intros Hri. destruct (gv_proposals (w_governor w) !! id) as [p|] eqn:E.
  - destruct (ri_some _ _ _ _ _ _ Hri id p E) as [D _].
    destruct (ds_proposed _ _ _ _ _ D) as (l1 & x & via & ac & de & w1 & l2 & El & Hid & _).
    intros H. rewrite El in H. apply Forall_app in H as [_ H]. apply Forall_cons in H as [H _].
    cbn [proposes] in H. lia.
  - eapply Forall_impl; [exact (ri_none _ _ _ _ _ _ Hri id E)|]. cbn beta. intros e He. now apply concerns_false in He.
Qed.

Lemma C80_propose_proof G t0 w0 log w now x via actions desc :
  forall (Hrun : gov_run G t0 w0 log w now) (Htime : kx_time x = now),
  (exists w', world_run G x (WPropose via actions desc) w = Ok w') <->
  may_act w x via /\
  (forall a, ge_restricted G desc = Some a -> a = actor x via) /\
  gv_threshold (w_governor w) <= staked_votes (world_at w0 log (now - 1)) (actor x via) /\
  actions <> [] /\ Forall (fun e => proposes G (ge_id G actions desc) e = false) log /\
  now + gv_delay (w_governor w) < 2 ^ 48.
Proof.
  intros Hr Ht. apply run_ok in Hr. pose proof (ri_ginv _ _ _ _ _ _ Hr) as Hg. pose proof (gi_time _ _ _ _ _ _ Hg) as Hn.
  cbn [world_run]. pose proof (acting_iff _ _ _ _ _ _ x via Hr) as Hact.
  destruct (acting w (kx_sender x) via) as [a|e]; cbn [gv_bind].
  2:{ split; [intros [w' H]; discriminate|]. intros [H _]. contradiction. }
  destruct Hact as [-> Hmay]. unfold propose. cbv zeta. rewrite Ht, clock_small by lia.
  set (a := actor x via). pose proof (proposed_before _ _ _ _ _ _ (ge_id G actions desc) Hr) as Hprop.
  destruct (past_votes _ _ _ _ _ _ (now - 1) a Hr ltac:(lia)) as (Ev & _).
  assert (Hv : get_past_votes now (w_votes w) a (now - 1) = Some (staked_votes (world_at w0 log (now - 1)) a)).
  { unfold get_past_votes. rewrite clock_small by lia. destruct (N.ltb_spec (now - 1) now); [|lia]. now rewrite Ev. }
  assert (Hr1 : (match ge_restricted G desc with Some b => b =? a | None => true end) = true <->
                (forall b, ge_restricted G desc = Some b -> b = a)).
  { destruct (ge_restricted G desc) as [b|]; [|split; [discriminate|reflexivity]]. rewrite N.eqb_eq. split; [intros -> c [= <-]; reflexivity|auto]. }
  destruct (match ge_restricted G desc with Some b => b =? a | None => true end); cbn [gv_require gv_bind].
  2:{ split; [intros [w' H]; discriminate|]. intros (_ & H & _). apply Hr1 in H. discriminate. }
  assert (Hr2 : forall b, ge_restricted G desc = Some b -> b = a) by (now apply Hr1).
  assert (Eth : (if gv_threshold (w_governor w) =? 0 then Ok tt
     else gov! _ := gv_require (negb (now =? 0)) GOverflow in
       gov! power := gv_option (get_past_votes now (w_votes w) a (now - 1)) GFutureLookup in
       gv_require (negb (power <? gv_threshold (w_governor w))) GInsufficientVotes)
    = gv_require (gv_threshold (w_governor w) <=? staked_votes (world_at w0 log (now - 1)) a) GInsufficientVotes).
  { rewrite Hv. cbn [gv_option gv_bind]. destruct (N.eqb_spec now 0); [lia|]. cbn [negb gv_require gv_bind].
    destruct (N.eqb_spec (gv_threshold (w_governor w)) 0) as [->|]; unfold gv_require; [now destruct (staked_votes (world_at w0 log (now - 1)) a)|].
    destruct (N.ltb_spec (staked_votes (world_at w0 log (now - 1)) a) (gv_threshold (w_governor w))),
      (N.leb_spec (gv_threshold (w_governor w)) (staked_votes (world_at w0 log (now - 1)) a)); try lia; reflexivity. }
  rewrite Eth. destruct (N.leb_spec (gv_threshold (w_governor w)) (staked_votes (world_at w0 log (now - 1)) a)) as [Hth|Hth];
    cbn [gv_require gv_bind].
  2:{ split; [intros [w' H]; discriminate|]. intros (_ & _ & H & _). lia. }
  destruct actions as [|ac rest]; cbn [length Nat.eqb negb gv_require gv_bind].
  { split; [intros [w' H]; discriminate|]. intros (_ & _ & _ & H & _). contradiction. }
  set (id := ge_id G (ac :: rest) desc) in *.
  destruct (gv_proposals (w_governor w) !! id) as [p|] eqn:Ep.
  { pose proof (start_nonzero _ _ _ _ _ _ _ _ Hr Ep) as Hs. destruct (N.eqb_spec (pr_start p) 0); [lia|].
    cbn [gv_require gv_bind]. split; [intros [w' H]; discriminate|]. intros (_ & _ & _ & _ & H & _). contradiction. }
  cbn [gv_require gv_bind]. destruct (N.ltb_spec (now + gv_delay (w_governor w)) (2 ^ 48)) as [Hd|Hd]; cbn [gv_require gv_bind].
  2:{ split; [intros [w' H]; discriminate|]. intros (_ & _ & _ & _ & _ & H). lia. }
  destruct (gi_period _ _ _ _ _ _ Hg) as [Hper _]. destruct (N.ltb_spec (gv_period (w_governor w)) (2 ^ 32)); [|lia].
  cbn [gv_require gv_bind]. split; [|eauto].
  intros _. split; [exact Hmay|]. split; [exact Hr2|]. split; [exact Hth|]. split; [discriminate|]. split; [exact Hprop|exact Hd].
Qed.

(** The state of a proposal, from its record. *)
Lemma state_is G t0 w0 log w now id p : run_inv G t0 w0 log w now -> gv_proposals (w_governor w) !! id = Some p ->
  let w1 := world_at w0 log (pr_start p) in
  state_of now id w = Ok (if pr_executed p then PsExecuted else if pr_canceled p then PsCanceled
    else if now <=? pr_start p then PsPending else if now <=? pr_start p + pr_duration p then PsActive
    else if (iprove_supply w1 * quorum_percent w1 / 100 <=? pr_for p + pr_abstain p) && (pr_against p <? pr_for p)
         then PsSucceeded else PsDefeated).
Proof.
  intros Hr Hp w1. pose proof (gi_time _ _ _ _ _ _ (ri_ginv _ _ _ _ _ _ Hr)) as Hn.
  unfold state_of, quorum_at, get_past_supply. rewrite Hp, clock_small by lia. cbn [gv_option gv_bind].
  destruct (pr_executed p); [reflexivity|]. destruct (pr_canceled p); [reflexivity|].
  pose proof (start_nonzero _ _ _ _ _ _ _ _ Hr Hp) as Hs. destruct (N.eqb_spec (pr_start p) 0); [lia|].
  destruct (N.leb_spec now (pr_start p)); [reflexivity|]. destruct (N.leb_spec now (pr_start p + pr_duration p)); [reflexivity|].
  destruct (N.ltb_spec (pr_start p) now); [|lia]. cbn [gv_option gv_bind].
  destruct (past_votes _ _ _ _ _ _ (pr_start p) 0 Hr ltac:(lia)) as (_ & E1 & E2). rewrite E1, E2.
  destruct (N.ltb_spec (pr_start p) t0) as [Hlt|_].
  - destruct (ri_some _ _ _ _ _ _ Hr id p Hp) as [D _].
    destruct (ds_proposed _ _ _ _ _ D) as (l1 & x & via & ac & de & w2 & l2 & El & _ & _ & _ & _ & Es & _).
    pose proof (ri_times _ _ _ _ _ _ Hr) as Ht. rewrite El in Ht. apply Forall_app in Ht as [_ Ht].
    apply Forall_cons in Ht as [Ht _]. cbn [entry_when] in Ht. lia.
  - unfold w1. destruct (_ && _); reflexivity.
Qed.

Ltac no_accept := split; [intros [? ?]; discriminate|].

Lemma C80_cancel_proof G t0 w0 log w now x via actions desc :
  forall (Hrun : gov_run G t0 w0 log w now) (Htime : kx_time x = now),
  (exists w', world_run G x (WCancel via actions desc) w = Ok w') <->
  may_act w x via /\
  exists p, gv_proposals (w_governor w) !! ge_id G actions desc = Some p /\
    pr_executed p = false /\ pr_canceled p = false /\ now <= pr_start p /\ actor x via = pr_proposer p.
Proof.
  intros Hr Ht. apply run_ok in Hr. pose proof (ri_ginv _ _ _ _ _ _ Hr) as Hg.
  cbn [world_run]. pose proof (acting_iff _ _ _ _ _ _ x via Hr) as Hact.
  destruct (acting w (kx_sender x) via) as [a|e]; cbn [gv_bind].
  2:{ no_accept. intros [H _]. contradiction. }
  destruct Hact as [-> Hmay]. unfold cancel_proposal, in_state. cbv zeta. rewrite Ht.
  destruct (gv_proposals (w_governor w) !! ge_id G actions desc) as [p|] eqn:Ep.
  2:{ unfold state_of. rewrite Ep. cbn [gv_option gv_bind]. no_accept. intros (_ & p & H & _). discriminate. }
  rewrite (state_is _ _ _ _ _ _ _ p Hr Ep). cbv zeta. cbn [gv_option gv_bind].
  assert (Hgoal : forall P, (may_act w x via /\ exists q, Some p = Some q /\ P q) <-> P p).
  { intros P. split; [intros (_ & q & [= <-] & H); exact H|]. eauto. }
  rewrite Hgoal. clear Hgoal.
  destruct (pr_executed p) eqn:E1; [cbn; no_accept; intros (H & _); discriminate|].
  destruct (pr_canceled p) eqn:E2; [cbn; no_accept; intros (_ & H & _); discriminate|].
  destruct (N.leb_spec now (pr_start p)) as [Hle|Hgt].
  2:{ destruct (now <=? _); [|destruct (_ && _)]; cbn; no_accept; intros (_ & _ & H & _); lia. }
  cbn [gv_require gv_bind]. destruct (N.eqb_spec (actor x via) (pr_proposer p)) as [Ea|Ea]; cbn [gv_require gv_bind].
  - split; [auto|eauto].
  - no_accept. intros (_ & _ & _ & H). contradiction.
Qed.

Lemma C80_vote_proof G t0 w0 log w now x via id support :
  forall (Hrun : gov_run G t0 w0 log w now) (Htime : kx_time x = now),
  (exists w', world_run G x (WVote via id support) w = Ok w') <->
  may_act w x via /\ support <= 2 /\
  exists p, gv_proposals (w_governor w) !! id = Some p /\
    pr_executed p = false /\ pr_canceled p = false /\ pr_start p < now <= pr_start p + pr_duration p /\
    ~ actor x via ∈ pr_voted p.
Proof.
  intros Hr Ht. apply run_ok in Hr. pose proof (ri_ginv _ _ _ _ _ _ Hr) as Hg. pose proof (gi_time _ _ _ _ _ _ Hg) as Hn.
  cbn [world_run]. pose proof (acting_iff _ _ _ _ _ _ x via Hr) as Hact.
  destruct (acting w (kx_sender x) via) as [a|e]; cbn [gv_bind].
  2:{ no_accept. intros [H _]. contradiction. }
  destruct Hact as [-> Hmay]. unfold cast_vote, in_state. cbv zeta. rewrite Ht.
  destruct (gv_proposals (w_governor w) !! id) as [p|] eqn:Ep.
  2:{ unfold state_of. rewrite Ep. cbn [gv_option gv_bind]. no_accept. intros (_ & _ & p & H & _). discriminate. }
  rewrite (state_is _ _ _ _ _ _ _ p Hr Ep). cbv zeta. cbn [gv_option gv_bind].
  assert (Hgoal : forall P, (may_act w x via /\ support <= 2 /\ exists q, Some p = Some q /\ P q) <-> support <= 2 /\ P p).
  { intros P. split; [intros (_ & ? & q & [= <-] & H); auto|]. intros [? ?]. eauto. }
  rewrite Hgoal. clear Hgoal.
  destruct (pr_executed p) eqn:E1; [cbn; no_accept; intros (_ & H & _); discriminate|].
  destruct (pr_canceled p) eqn:E2; [cbn; no_accept; intros (_ & _ & H & _); discriminate|].
  destruct (N.leb_spec now (pr_start p)) as [Hle|Hgt]; [cbn; no_accept; intros (_ & _ & _ & H & _); lia|].
  destruct (N.leb_spec now (pr_start p + pr_duration p)) as [Hle|Hgt2].
  2:{ destruct (_ && _); cbn; no_accept; intros (_ & _ & _ & H & _); lia. }
  cbn [gv_require gv_bind]. unfold get_past_votes. rewrite clock_small by lia. destruct (N.ltb_spec (pr_start p) now); [|lia].
  cbn [gv_option gv_bind]. destruct (bool_decide (actor x via ∈ pr_voted p)) eqn:Ev; cbn [negb gv_require gv_bind].
  { apply bool_decide_eq_true in Ev. no_accept. intros (_ & _ & _ & _ & H'). contradiction. }
  apply bool_decide_eq_false in Ev. destruct (N.leb_spec support 2) as [Hs|Hs]; cbn [gv_require gv_bind].
  2:{ no_accept. intros (H' & _). lia. }
  assert (Hfit : (if support =? 0 then pr_against p + lookup_at (pr_start p) (votes_trace (w_votes w) (actor x via)) else pr_against p) < two256 /\
    (if support =? 1 then pr_for p + lookup_at (pr_start p) (votes_trace (w_votes w) (actor x via)) else pr_for p) < two256 /\
    (if support =? 2 then pr_abstain p + lookup_at (pr_start p) (votes_trace (w_votes w) (actor x via)) else pr_abstain p) < two256).
  { pose proof (votes_total _ _ _ _ _ _ _ _ Hr Ep) as Hsum.
    destruct (past_votes _ _ _ _ _ _ (pr_start p) (actor x via) Hr ltac:(lia)) as (-> & _).
    pose proof (ri_stk _ _ _ _ _ _ Hr (pr_start p)) as Hk.
    pose proof (ibal_le _ (actor x via) (ki_total _ _ Hk)) as [Hb Hlt].
    assert (staked_votes (world_at w0 log (pr_start p)) (actor x via) <= iprove_supply (world_at w0 log (pr_start p))).
    { unfold staked_votes, iprove_supply. unfold ibal in Hb. destruct (bool_decide _); lia. }
    assert (iprove_supply (world_at w0 log (pr_start p)) < 2 ^ 208) by exact Hlt.
    assert (2 ^ 208 + 2 ^ 208 < two256) by reflexivity.
    destruct (support =? 0), (support =? 1), (support =? 2); lia. }
  destruct Hfit as (F1 & F2 & F3).
  repeat match goal with |- context [?a <? two256] => destruct (N.ltb_spec a two256); [|lia] end.
  cbn [andb gv_require gv_bind]. split; [auto 6|eauto].
Qed.

(** ** Execution *)


Definition akin (w w1 : world) : Prop :=
  w_staking w = w_staking w1 /\ gv_delay (w_governor w) = gv_delay (w_governor w1) /\
  gv_period (w_governor w) = gv_period (w_governor w1) /\ gv_threshold (w_governor w) = gv_threshold (w_governor w1) /\
  gv_proposals (w_governor w) = gv_proposals (w_governor w1).

Lemma action_sound G x others a w w' past ps pq :
  ginv G (kx_time x) past ps pq w -> match a with GaStaking c => no_permit_of_contracts G c | _ => True end ->
  run_action G x others a w = Ok w' -> action_done G x others a w w'.
Proof.
  intros Hg Hp H. pose proof Hg as [Gs Gt Gk Gh Go Gn Gc Gv Gd Gp Gqt Gq Gql].
  destruct a as [c|n|n|n|n|o|vc|target]; cbn [run_action] in H.
  - set (x' := StakingCtx _ _ _ _ _ _) in H.
    assert (Hst : staking_step G x' c w = Ok w' /\ match c with KReward _ _ => False | _ => True end)
      by (destruct c; try (split; [exact H|exact I]); discriminate).
    destruct Hst as [Hst Hc]. pose proof (staking_step_ok G _ past ps pq x' c w Hg eq_refl (proj2 Gs) Hp) as Hs.
    destruct (staking_run _ _ _ _) as [[s evs]|e] eqn:Er; [|congruence]. destruct Hs as (v & Ev & _).
    rewrite Ev in Hst. injection Hst as <-. eapply ad_staking; [exact Hc|exact Er].
  - gov_inv. apply ad_delay; [lia|reflexivity].
  - gov_inv. apply ad_period; [lia|reflexivity].
  - gov_inv. apply ad_threshold; [unfold two256 in *; lia|reflexivity].
  - gov_inv. rewrite clock_small in * by lia.
    destruct (push_ok (kx_time x) n (gv_quorum (w_governor w)) Gqt) as (l2 & El & Htr & Hat).
    match goal with H : push _ _ _ = Some ?l |- _ => rewrite El in H; injection H as <- end.
    eapply ad_quorum; [lia|reflexivity|]. unfold quorum_percent. cbn [w_set_governor w_governor gv_quorum].
    rewrite (latest_now (kx_time x)) by exact Htr. rewrite Hat, N.leb_refl. reflexivity.
  - gov_inv. unfold token_step in H. destruct (run_token_op _ _) as [t|] eqn:Et; [|discriminate]. injection H as <-.
    apply ad_token; [|exact Et]. destruct o; cbn [token_caller] in *; try discriminate; lia.
  - gov_inv. now apply ad_vapp.
  - gov_inv. now apply ad_other.
Qed.

Lemma action_complete G x others a w w' w1 past ps pq :
  ginv G (kx_time x) past ps pq w1 -> match a with GaStaking c => no_permit_of_contracts G c | _ => True end ->
  akin w w1 -> action_done G x others a w w' -> exists w1', run_action G x others a w1 = Ok w1' /\ akin w' w1'.
Proof.
  intros Hg Hp Hal H. pose proof Hg as [Gs Gt Gk Gh Go Gn Gc Gv Gd Gp Gqt Gq Gql].
  pose proof Hal as (A1 & A2 & A3 & A4 & A5). destruct H; cbn [run_action].
  - set (x' := StakingCtx _ _ 0 0 _ _).
    pose proof (staking_step_ok G _ past ps pq x' c w1 Hg eq_refl (proj2 Gs) Hp) as Hs.
    unfold ctx_in in Hs. cbn [kx_sender kx_time kx_permit_valid kx_vapp_accepts x'] in Hs. rewrite <- A1, <- A2, <- A3, H0 in Hs.
    destruct Hs as (v1 & Ev & _). exists (World s v1 (w_governor w1)). split.
    + destruct c; try exact Ev. contradiction.
    + unfold akin. cbn [w_staking w_governor]. auto.
  - destruct (N.ltb_spec n (2 ^ 48)); [|lia]. cbn [gv_require gv_bind]. eexists. split; [reflexivity|]. subst g.
    unfold akin. cbn. auto.
  - destruct (N.ltb_spec n (2 ^ 32)); [|lia]. destruct (N.eqb_spec n 0); [lia|]. cbn [negb gv_require gv_bind].
    eexists. split; [reflexivity|]. subst g. unfold akin. cbn. auto.
  - destruct (N.ltb_spec n two256); [|unfold two256 in *; lia]. cbn [gv_require gv_bind]. eexists. split; [reflexivity|]. subst g.
    unfold akin. cbn. auto.
  - destruct (N.leb_spec n 100); [|lia]. cbn [gv_require gv_bind]. rewrite clock_small by lia.
    destruct (push_ok (kx_time x) n (gv_quorum (w_governor w1)) Gqt) as (l2 & -> & _). cbn [gv_option gv_bind].
    eexists. split; [reflexivity|]. subst g. unfold akin. cbn. auto.
  - assert (Ec : (match token_caller o with Some b => b =? ge_self G | None => false end) = true)
      by (destruct o; cbn in *; try lia; contradiction).
    rewrite Ec. cbn [gv_require gv_bind]. unfold token_step. rewrite <- A1, H0. eexists. split; [reflexivity|].
    unfold akin. cbn. auto.
  - match goal with H : kx_vapp_accepts _ = true |- _ => rewrite H end. cbn [gv_require gv_bind]. eauto.
  - subst others. cbn [gv_require gv_bind]. eauto.
Qed.

Lemma actions_sound G x others l past ps pq : forall w w',
  ginv G (kx_time x) past ps pq w ->
  Forall (fun a => match a with GaStaking c => no_permit_of_contracts G c | _ => True end) l ->
  run_actions G x others l w = Ok w' -> actions_done G x others l w w'.
Proof.
  induction l as [|a l IH]; intros w w' Hg Hf H; cbn [run_actions] in H; [injection H as <-; constructor|].
  apply Forall_cons in Hf as [Ha Hf]. destruct (run_action G x others a w) as [w1|] eqn:E; cbn [gv_bind] in H; [|discriminate].
  econstructor; [eapply action_sound; eassumption|]. apply IH; [|exact Hf|exact H].
  eapply run_action_ok; try eassumption. reflexivity.
Qed.
Lemma actions_complete G x others l past ps pq : forall w w' w1,
  ginv G (kx_time x) past ps pq w1 ->
  Forall (fun a => match a with GaStaking c => no_permit_of_contracts G c | _ => True end) l ->
  akin w w1 -> actions_done G x others l w w' -> exists w1', run_actions G x others l w1 = Ok w1'.
Proof.
  induction l as [|a l IH]; intros w w' w1 Hg Hf Hal H; cbn [run_actions]; [eauto|].
  apply Forall_cons in Hf as [Ha Hf]. inversion H as [|? ? ? w2 ? Hd Hds]; subst.
  destruct (action_complete _ _ _ _ _ _ _ _ _ _ Hg Ha Hal Hd) as (w1' & E & Hal'). rewrite E. cbn [gv_bind].
  eapply IH; [|exact Hf|exact Hal'|exact Hds]. eapply run_action_ok; try eassumption. reflexivity.
Qed.

Lemma C80_execute_proof G t0 w0 log w now x actions desc others :
  let id := ge_id G actions desc in
  let may_execute p :=
    gv_proposals (w_governor w) !! id = Some p /\
    pr_executed p = false /\ pr_canceled p = false /\ pr_start p + pr_duration p < now /\
    pr_against p < pr_for p /\
    (let w1 := world_at w0 log (pr_start p) in
     iprove_supply w1 * quorum_percent w1 / 100 <= pr_for p + pr_abstain p) in
  forall (Hrun : gov_run G t0 w0 log w now) (Htime : kx_time x = now) (Hby : by_anyone G w x (WExecute actions desc others)),
  match world_run G x (WExecute actions desc others) w with
  | Ok w' => exists p, may_execute p /\ actions_done G x others actions (marked_executed id p w) w'
  | Err _ => ~ exists p w', may_execute p /\ actions_done G x others actions (marked_executed id p w) w'
  end.
Proof.
  intros id may Hr Ht [_ Hby]. apply run_ok in Hr. cbn [world_run]. unfold execute_proposal, in_state. cbv zeta. fold id.
  destruct (gv_proposals (w_governor w) !! id) as [p|] eqn:Ep.
  2:{ unfold state_of. rewrite Ep. cbn [gv_option gv_bind]. intros (p & w' & (H & _) & _). congruence. }
  rewrite Ht, (state_is _ _ _ _ _ _ _ p Hr Ep). cbv zeta. cbn [gv_option gv_bind].
  assert (Hp : forall q, may q -> q = p) by (intros q (H & _); congruence).
  destruct (pr_executed p) eqn:E1; [cbn; intros (q & w' & H & _); rewrite (Hp q H) in H; destruct H as (_ & H & _); congruence|].
  destruct (pr_canceled p) eqn:E2; [cbn; intros (q & w' & H & _); rewrite (Hp q H) in H; destruct H as (_ & _ & H & _); congruence|].
  destruct (N.leb_spec now (pr_start p)).
  { cbn. intros (q & w' & H' & _). rewrite (Hp q H') in H'. destruct H' as (_ & _ & _ & H' & _). lia. }
  destruct (N.leb_spec now (pr_start p + pr_duration p)).
  { cbn. intros (q & w' & H' & _). rewrite (Hp q H') in H'. destruct H' as (_ & _ & _ & H' & _). lia. }
  set (w1 := world_at w0 log (pr_start p)) in *.
  destruct ((iprove_supply w1 * quorum_percent w1 / 100 <=? pr_for p + pr_abstain p) && (pr_against p <? pr_for p)) eqn:Eq.
  2:{ cbn. intros (q & w' & H' & _). rewrite (Hp q H') in H'. destruct H' as (_ & _ & _ & _ & H1 & H2). cbv zeta in H2. fold w1 in H2. lia. }
  cbn [gv_require gv_bind].
  assert (Hmay : may p).
  { unfold may. cbv zeta. fold w1. apply andb_true_iff in Eq as [Q1 Q2]. apply N.leb_le in Q1. apply N.ltb_lt in Q2.
    split; [reflexivity|]. split; [exact E1|]. split; [exact E2|]. split; [lia|]. split; [lia|exact Q1]. }
  assert (Hmark : w_set_governor (gv_set_proposal id (Proposal (pr_proposer p) (pr_start p) (pr_duration p) true false
            (pr_against p) (pr_for p) (pr_abstain p) (pr_voted p)) (w_governor w)) w = marked_executed id p w)
    by (unfold marked_executed; rewrite E2; reflexivity).
  rewrite Hmark. clear Hmark.
  assert (Hg : ginv G (kx_time x) (fun t a => staked_votes (world_at w0 log t) a) (fun t => iprove_supply (world_at w0 log t))
              (fun t => if t <? t0 then 0 else quorum_percent (world_at w0 log t)) (marked_executed id p w)).
  { rewrite Ht. pose proof (ri_ginv _ _ _ _ _ _ Hr) as Hg0. unfold marked_executed. cbv zeta.
    apply (ginv_governor _ _ _ _ _ _ _ Hg0); cbn; [apply (gi_delay _ _ _ _ _ _ Hg0)|apply (gi_period _ _ _ _ _ _ Hg0)|reflexivity]. }
  destruct (run_actions G x others actions (marked_executed id p w)) as [w'|e] eqn:Ea.
  - exists p. split; [exact Hmay|]. eapply actions_sound; eassumption.
  - intros (q & w' & Hq & Hd). rewrite (Hp q Hq) in Hd.
    destruct (actions_complete _ _ _ _ _ _ _ _ _ (marked_executed id p w) Hg Hby ltac:(unfold akin; auto) Hd) as (w2 & E).
    congruence.
Qed.

(** ** Logs *)

Lemma split_snoc {X} (l l1 l2 : list X) (e e' : X) : l ++ [e'] = l1 ++ e :: l2 ->
  (l1 = l /\ e = e' /\ l2 = []) \/ exists l3, l2 = l3 ++ [e'] /\ l = l1 ++ e :: l3.
Proof.
  destruct l2 as [|y l2 _] using rev_ind; intros H.
  - apply app_inj_tail in H as [-> ->]. auto.
  - right. rewrite app_comm_cons, app_assoc in H. apply app_inj_tail in H as [-> ->]. eauto.
Qed.

Lemma run_prefix G t0 w0 log w now : gov_run G t0 w0 log w now -> forall l1 e l2, log = l1 ++ e :: l2 ->
  gov_run G t0 w0 l1 (final w0 l1) (entry_when e) /\
  match e with
  | WAccepted x c w' => by_anyone G (final w0 l1) x c /\ world_run G x c (final w0 l1) = Ok w'
  | WReverted x c err => by_anyone G (final w0 l1) x c /\ world_run G x c (final w0 l1) = Err err
  end.
Proof.
  induction 1 as [Hs|log w now now' _ IH Hle Hlt|log w now x c w' Hr IH Ht Hby Hw|log w now x c err Hr IH Ht Hby Hw]; intros l1 e l2 El.
  - destruct l1; discriminate.
  - eapply IH; exact El.
  - apply split_snoc in El as [(-> & -> & ->)|(l3 & -> & ->)]; [|eapply IH; reflexivity].
    cbn [entry_when]. rewrite Ht. pose proof (ri_final _ _ _ _ _ _ (run_ok _ _ _ _ _ _ Hr)) as ->. auto.
  - apply split_snoc in El as [(-> & -> & ->)|(l3 & -> & ->)]; [|eapply IH; reflexivity].
    cbn [entry_when]. rewrite Ht. pose proof (ri_final _ _ _ _ _ _ (run_ok _ _ _ _ _ _ Hr)) as ->. auto.
Qed.

Lemma occurs_app f l1 l2 : occurs f (l1 ++ l2) = (occurs f l1 + occurs f l2)%nat.
Proof. unfold occurs. now rewrite List.filter_app, app_length. Qed.
Lemma occurs_none f l : occurs f l = 0%nat -> Forall (fun e => f e = false) l.
Proof.
  unfold occurs. induction l as [|e l IH]; cbn [List.filter]; [constructor|].
  destruct (f e) eqn:E; cbn [length]; intros H; [discriminate|]. constructor; auto.
Qed.

(** An executed proposal was proposed, voted on, not cancelled, and is executed once. *)
Lemma C80_passed_proof G t0 w0 log w now l1 x actions desc others w' l2 :
  let id := ge_id G actions desc in
  forall (Hrun : gov_run G t0 w0 log w now) (Hlog : log = l1 ++ WAccepted x (WExecute actions desc others) w' :: l2),
  Forall (fun e => executes G id e = false) (l1 ++ l2) /\
  Forall (fun e => cancels G id e = false) (l1 ++ l2) /\
  exists l0 x0 via actions0 desc0 w1 l01,
    l1 = l0 ++ WAccepted x0 (WPropose via actions0 desc0) w1 :: l01 /\ ge_id G actions0 desc0 = id /\
    may_act (final w0 l0) x0 via /\
    gv_threshold (w_governor (final w0 l0)) <= staked_votes (world_at w0 l0 (kx_time x0 - 1)) (actor x0 via) /\
    let start := kx_time x0 + gv_delay (w_governor (final w0 l0)) in
    let then_ := world_at w0 l1 start in
    start + gv_period (w_governor (final w0 l0)) < kx_time x /\
    counted then_ 0 (ballots id l1) < counted then_ 1 (ballots id l1) /\
    iprove_supply then_ * quorum_percent then_ / 100 <= counted then_ 1 (ballots id l1) + counted then_ 2 (ballots id l1).
Proof.
  intros id Hr El.
  destruct (run_prefix _ _ _ _ _ _ Hr _ _ _ El) as (Hr1 & Hby & Hw). cbn [entry_when] in Hr1.
  pose proof (C80_execute_proof _ _ _ _ _ _ x actions desc others Hr1 eq_refl Hby) as Hx. rewrite Hw in Hx.
  destruct Hx as (p & (Hp & E1 & E2 & Hend & Hmaj & Hq) & Hd). fold id in Hp, Hd.
  pose proof (run_ok _ _ _ _ _ _ Hr1) as Hri1.
  destruct (ri_some _ _ _ _ _ _ Hri1 id p Hp) as [D _].
  pose proof (run_ok _ _ _ _ _ _ Hr) as Hri.
  destruct (ds_proposed _ _ _ _ _ D) as (l0 & x0 & via & ac & de & w1 & l01 & El1 & Hid & _ & _ & Ep & Es & Edur).
  assert (Hends : Forall (fun e => executes G id e = false) (l1 ++ l2) /\ Forall (fun e => cancels G id e = false) (l1 ++ l2)).
  { set (e := WAccepted x (WExecute actions desc others) w') in *.
    assert (Hex : executes G id e = true) by (unfold e, executes; fold id; apply N.eqb_refl).
    assert (Hca : cancels G id e = false) by reflexivity.
    destruct (gv_proposals (w_governor w) !! id) as [q|] eqn:Eq.
    2:{ pose proof (ri_none _ _ _ _ _ _ Hri id Eq) as Hn. rewrite El in Hn. apply Forall_app in Hn as [_ Hn].
        apply Forall_cons in Hn as [Hn _]. apply concerns_false in Hn as (_ & _ & Hn & _). congruence. }
    destruct (ri_some _ _ _ _ _ _ Hri id q Eq) as [Dq _].
    pose proof (ds_executed _ _ _ _ _ Dq) as X1. pose proof (ds_canceled _ _ _ _ _ Dq) as X2. pose proof (ds_one_end _ _ _ _ _ Dq) as X3.
    rewrite El, occurs_app in X1, X2. change (e :: l2) with ([e] ++ l2) in X1, X2. rewrite occurs_app in X1, X2.
    unfold occurs at 2 in X1. unfold occurs at 2 in X2. cbn [List.filter] in X1, X2. rewrite Hex in X1. rewrite Hca in X2. cbn [length] in X1, X2.
    destruct (pr_executed q), (pr_canceled q); cbn in X3; try discriminate; try lia.
    split; apply Forall_app; split; apply occurs_none; lia. }
  destruct Hends as [He Hc]. split; [exact He|]. split; [exact Hc|].
  exists l0, x0, via, ac, de, w1, l01. split; [exact El1|]. split; [exact Hid|].
  destruct (run_prefix _ _ _ _ _ _ Hr1 _ _ _ El1) as (Hr0 & Hby0 & Hw0). cbn [entry_when] in Hr0.
  destruct (proj1 (C80_propose_proof _ _ _ _ _ _ x0 via ac de Hr0 eq_refl) ltac:(eauto)) as (M1 & _ & M3 & _).
  split; [exact M1|]. split; [exact M3|]. cbv zeta. rewrite <- Es, <- Edur.
  rewrite <- (ds_against _ _ _ _ _ D), <- (ds_for _ _ _ _ _ D), <- (ds_abstain _ _ _ _ _ D).
  split; [exact Hend|]. split; [exact Hmaj|exact Hq].
Qed.

(** ** Provers stay provers *)

Lemma step_provers G x others a w w' past ps pq :
  ginv G (kx_time x) past ps pq w -> match a with GaStaking c => no_permit_of_contracts G c | _ => True end ->
  action_done G x others a w w' -> provers w ⊆ provers w'.
Proof.
  intros Hg Hp H. destruct H; try (subst; reflexivity).
  cbn [w_staking]. eapply provers_step; [apply (gi_stk _ _ _ _ _ _ Hg)| |eassumption].
  split; [apply (proj2 (gi_start _ _ _ _ _ _ Hg))|exact Hp].
Qed.
Lemma actions_provers G x others l past ps pq : forall w w',
  ginv G (kx_time x) past ps pq w ->
  Forall (fun a => match a with GaStaking c => no_permit_of_contracts G c | _ => True end) l ->
  run_actions G x others l w = Ok w' -> provers w ⊆ provers w'.
Proof.
  induction l as [|a l IH]; intros w w' Hg Hf H; cbn [run_actions] in H; [injection H as <-; reflexivity|].
  apply Forall_cons in Hf as [Ha Hf]. destruct (run_action G x others a w) as [w1|] eqn:E; cbn [gv_bind] in H; [|discriminate].
  etransitivity.
  - eapply step_provers; [exact Hg|exact Ha|]. eapply action_sound; [exact Hg|exact Ha|exact E].
  - apply IH; [|exact Hf|exact H]. eapply run_action_ok; try eassumption. reflexivity.
Qed.
Lemma world_provers G now past ps pq x c w w' :
  ginv G now past ps pq w -> kx_time x = now -> by_anyone G w x c -> world_run G x c w = Ok w' -> provers w ⊆ provers w'.
Proof.
  intros Hg Ht [(Ha0 & Ho & Hns & Hnp) Hc] H.
  destruct c as [c|o|d|via actions desc|via actions desc|via id support|actions desc others]; cbn [world_run] in H.
  - pose proof (staking_step_ok G now past ps pq x c w Hg Ht Ho Hc) as Hs.
    destruct (staking_run _ _ _ _) as [[s evs]|e] eqn:Er; [|congruence]. destruct Hs as (v & Ev & _).
    rewrite Ev in H. injection H as <-. cbn [w_staking]. eapply provers_step; [apply (gi_stk _ _ _ _ _ _ Hg)| |exact Er].
    split; assumption.
  - unfold token_step in H. destruct (run_token_op _ _); [|discriminate]. injection H as <-. reflexivity.
  - gov_inv. reflexivity.
  - gov_inv. unfold propose in H. cbv zeta in H. gov_inv. reflexivity.
  - gov_inv. unfold cancel_proposal in H. cbv zeta in H. gov_inv. reflexivity.
  - gov_inv. unfold cast_vote in H. cbv zeta in H. gov_inv. reflexivity.
  - unfold execute_proposal in H. cbv zeta in H. gov_inv. subst now.
    eapply (actions_provers G x others actions past ps pq) in H; [exact H| |exact Hc].
    apply ginv_governor; [exact Hg|apply (gi_delay _ _ _ _ _ _ Hg)|apply (gi_period _ _ _ _ _ _ Hg)|reflexivity].
Qed.
Lemma past_provers G t0 w0 log w now t : gov_run G t0 w0 log w now -> provers (world_at w0 log t) ⊆ provers w.
Proof.
  induction 1 as [Hs|log w now now' _ IH Hle Hlt|log w now x c w' Hr IH Ht Hby Hw|log w now x c err Hr IH Ht Hby Hw]; try exact IH.
  - reflexivity.
  - rewrite world_at_snoc. destruct (kx_time x <=? t); [reflexivity|]. etransitivity; [exact IH|].
    eapply world_provers; [apply (ri_ginv _ _ _ _ _ _ (run_ok _ _ _ _ _ _ Hr))|exact Ht|exact Hby|exact Hw].
  - rewrite world_at_snoc. exact IH.
Qed.

(** A vote that counts is cast by the owner of a prover, through it. *)
Lemma C80_voice_proof G t0 w0 log w now l1 x via id support w' l2 t :
  forall (Hrun : gov_run G t0 w0 log w now) (Hlog : log = l1 ++ WAccepted x (WVote via id support) w' :: l2)
    (Hcounts : staked_votes (world_at w0 l1 t) (actor x via) <> 0),
  exists p, via = Some p /\ rg_owners (sk_registry (w_staking (final w0 l1))) !! kx_sender x = Some p.
Proof.
  intros Hr El Hc. destruct (run_prefix _ _ _ _ _ _ Hr _ _ _ El) as (Hr1 & Hby & Hw). cbn [entry_when] in Hr1.
  destruct (proj1 (C80_vote_proof _ _ _ _ _ _ x via id support Hr1 eq_refl) ltac:(eauto)) as (Hmay & _).
  destruct via as [p|]; [exists p; split; [reflexivity|exact Hmay]|].
  destruct Hc. unfold staked_votes. cbn [actor]. rewrite bool_decide_false; [reflexivity|]. intros Hin.
  apply (past_provers _ _ _ _ _ _ t Hr1) in Hin. destruct Hby as [(_ & _ & _ & Hn) _]. contradiction.
Qed.

(** ** What is the governor's to decide *)

Lemma C81_only_by_vote_proof G t0 w0 log w now x c w' :
  forall (Hrun : gov_run G t0 w0 log w now) (Htime : kx_time x = now) (Hby : by_anyone G w x c)
    (Haccepted : world_run G x c w = Ok w') (Howner : sk_owner (w_staking w) = ge_self G)
    (Hchange : settings_changed w w' \/ early_settlement G x w w'),
  exists actions desc others, c = WExecute actions desc others.
Proof.
  intros Hr Ht [(Ha0 & Ho & Hns & Hnp) Hc] H Hown Hch. apply run_ok in Hr. pose proof (ri_ginv _ _ _ _ _ _ Hr) as Hg.
  assert (Hsame : w_staking w' = w_staking w -> gv_delay (w_governor w') = gv_delay (w_governor w) ->
    gv_period (w_governor w') = gv_period (w_governor w) -> gv_threshold (w_governor w') = gv_threshold (w_governor w) ->
    quorum_percent w' = quorum_percent w -> False).
  { intros S1 S2 S3 S4 S5. destruct Hch as [Hch|(p & i & cl & C1 & _ & C3 & _)].
    - unfold settings_changed in Hch. rewrite S1, S2, S3, S4, S5 in Hch. tauto.
    - rewrite S1 in C3. contradiction. }
  destruct c as [c|o|d|via actions desc|via actions desc|via id support|actions desc others]; cbn [world_run] in H.
  - exfalso. pose proof (staking_step_ok G _ _ _ _ x c w Hg Ht Ho Hc) as Hs.
    destruct (staking_run _ _ _ _) as [[s evs]|e] eqn:Er; [|congruence]. destruct Hs as (v & Ev & _).
    rewrite Ev in H. injection H as <-.
    destruct Hch as [Hch|(p & i & cl & C1 & C2 & C3 & C4)].
    + unfold settings_changed, quorum_percent in Hch. cbn [w_staking w_governor] in Hch.
      apply settings_change in Er as [Er _]. cbn [ctx_in kx_sender] in Er. assert (Hno : kx_sender x <> sk_owner (w_staking w)) by congruence. apply Hno, Er. intuition congruence.
    + cbn [w_staking] in C3. apply (slashes_changes _ _ _ _ _ _ p) in Er as [E|[_ Er]]; [rewrite E in C3; contradiction|].
      destruct Er as [n _ _ E|j cj Hj Hjr Hw E].
      * rewrite E in C3. destruct C3. apply lookup_app_l_Some. exact C1.
      * rewrite E in C3. destruct (Nat.eq_dec i j) as [->|Hne].
        -- rewrite C1 in Hj. injection Hj as <-. unfold cancellable in Hw. cbn [ctx_in kx_sender kx_time kx_voting_delay kx_voting_period] in Hw.
           destruct Hw as [Hw|Hw]; [congruence|lia].
        -- rewrite list_lookup_insert_ne in C3 by congruence. contradiction.
  - exfalso. unfold token_step in H. destruct (run_token_op _ _); [|discriminate]. injection H as <-.
    destruct Hch as [Hch|(p & i & cl & C1 & _ & C3 & _)]; [|apply C3; exact C1].
    unfold settings_changed, quorum_percent in Hch. cbn in Hch. tauto.
  - exfalso. gov_inv. apply Hsame; reflexivity.
  - exfalso. gov_inv. unfold propose in H. cbv zeta in H. gov_inv. apply Hsame; reflexivity.
  - exfalso. gov_inv. unfold cancel_proposal in H. cbv zeta in H. gov_inv. apply Hsame; reflexivity.
  - exfalso. gov_inv. unfold cast_vote in H. cbv zeta in H. gov_inv. apply Hsame; reflexivity.
  - eauto.
Qed.

(** The governor stays the owner until a proposal hands the contract over. *)
Lemma actions_owner G x others l : forall w w', actions_done G x others l w w' ->
  existsb (fun a => match a with GaStaking (KTransferOwnership _ | KRenounceOwnership) => true | _ => false end) l = false ->
  sk_owner (w_staking w') = sk_owner (w_staking w).
Proof.
  induction l as [|a l IH]; intros w w' H Hn; inversion H as [|? ? ? w1 ? Hd Hds]; subst; [reflexivity|].
  cbn [existsb] in Hn. apply orb_false_iff in Hn as [Ha Hn]. rewrite (IH _ _ Hds Hn).
  destruct Hd; try (subst; reflexivity). cbn [w_staking].
  destruct c; try discriminate Ha; try contradiction; match goal with H : staking_run _ _ _ _ = Ok _ |- _ => rename H into Er end.
  1, 2, 3, 4: apply core_kept in Er; [|exact I]; apply core_eq in Er as (-> & _); reflexivity.
  - apply request_slash_ok in Er as (_ & _ & _ & _ & -> & _). reflexivity.
  - apply cancel_slash_ok in Er as (c & _ & _ & _ & _ & -> & _). reflexivity.
  - apply finish_slash_ok in Er. cbv zeta in Er. destruct Er as (c & d & b & _ & _ & Hx & _ & _ & Er).
    destruct Er as [[_ ->]|(b1 & b2 & f & _ & _ & _ & _ & ->)]; reflexivity.
  - apply dispense_ok in Er. cbv zeta in Er. destruct Er as (a & t & Hx & _ & _ & _ & _ & -> & _). reflexivity.
  - cbn [staking_run] in Er. unfold k_set_dispenser in Er. sk_inv. subst. reflexivity.
  - cbn [staking_run] in Er. unfold k_update_rate in Er. sk_inv. subst. reflexivity.
  - apply create_prover_ok in Er as (d & n & _ & _ & ->). reflexivity.
Qed.
Lemma C81_owner_proof G t0 w0 log w now :
  forall (Hrun : gov_run G t0 w0 log w now) (Hstart : sk_owner (w_staking w0) = ge_self G)
    (Hkept : Forall (fun e => hands_over e = false) log),
  sk_owner (w_staking w) = ge_self G.
Proof.
  induction 1 as [Hs|log w now now' _ IH Hle Hlt|log w now x c w' Hr IH Ht Hby Hw|log w now x c err Hr IH Ht Hby Hw]; intros H0 Hk; auto.
  - apply Forall_app in Hk as [Hk He]. rewrite Forall_singleton in He. specialize (IH H0 Hk).
    destruct (N.eq_dec (sk_owner (w_staking w')) (sk_owner (w_staking w))) as [?|Hne]; [congruence|].
    destruct (C81_only_by_vote_proof _ _ _ _ _ _ _ _ _ Hr Ht Hby Hw IH) as (actions & desc & others & ->);
      [left; now left|].
    cbn [hands_over] in He. pose proof (C80_execute_proof _ _ _ _ _ _ x actions desc others Hr Ht Hby) as Hx. rewrite Hw in Hx.
    destruct Hx as (p & _ & Hd). apply actions_owner in Hd; [|exact He]. rewrite Hd. exact IH.
  - apply Forall_app in Hk as [Hk _]. auto.
Qed.

(** Until the vote on a proposal made in time is over, a slash request cannot be cancelled if the governor's delay
    and period have not become shorter. *)
Lemma C81_in_time_proof G t0 w0 log w now l1 x0 via actions desc w1 l2 p i c x :
  forall (Hrun : gov_run G t0 w0 log w now) (Hlog : log = l1 ++ WAccepted x0 (WPropose via actions desc) w1 :: l2)
    (Hrequest : slashes_of (w_staking w) p !! N.to_nat i = Some c)
    (Hearly : kx_time x0 < sc_time c + ke_cancel_period (ge_staking G))
    (Hvoting : now <= kx_time x0 + gv_delay (w_governor (final w0 l1)) + gv_period (w_governor (final w0 l1)))
    (Hkept : gv_delay (w_governor (final w0 l1)) + gv_period (w_governor (final w0 l1))
             <= gv_delay (w_governor w) + gv_period (w_governor w))
    (Htime : kx_time x = now),
  exists e, world_run G x (WStaking (KCancelSlash p i)) w = Err (GStaking e).
Proof.
  intros Hr El Hc He Hv Hk Ht. cbn [world_run]. unfold staking_step.
  destruct (staking_run (ge_staking G) (ctx_in w x) (KCancelSlash p i) (w_staking w)) as [[s evs]|e] eqn:Er; [|eauto].
  exfalso. cbn [staking_run] in Er. apply cancel_slash_ok in Er as (c' & Hc' & _ & _ & Hd & _). rewrite Hc in Hc'. injection Hc' as <-.
  unfold cancellable in Hd. cbn [ctx_in kx_time kx_voting_delay kx_voting_period] in Hd. lia.
Qed.

(** A slash that was voted for can be executed while the request is open. *)
Lemma C81_enforced_proof G t0 w0 log w now x p i desc others q c :
  let id := ge_id G [GaStaking (KFinishSlash p i)] desc in
  forall (Hrun : gov_run G t0 w0 log w now) (Htime : kx_time x = now)
    (Hby : by_anyone G w x (WExecute [GaStaking (KFinishSlash p i)] desc others))
    (Howner : sk_owner (w_staking w) = ge_self G)
    (Hproposal : gv_proposals (w_governor w) !! id = Some q)
    (Hends : pr_executed q = false /\ pr_canceled q = false /\ pr_start q + pr_duration q < now)
    (Hpassed : pr_against q < pr_for q /\
       let w1 := world_at w0 log (pr_start q) in iprove_supply w1 * quorum_percent w1 / 100 <= pr_for q + pr_abstain q)
    (Hprover : p ∈ rg_provers (sk_registry (w_staking w)))
    (Hrequest : slashes_of (w_staking w) p !! N.to_nat i = Some c) (Hopen : sc_resolved c = false)
    (Hsize : staked_votes w p * 10 ^ 18 < 2 ^ 256 /\
       tk_balance (bk_prove (sk_bank (w_staking w))) (ke_iprove (ge_staking G)) < 2 ^ 256),
  exists w', world_run G x (WExecute [GaStaking (KFinishSlash p i)] desc others) w = Ok w' /\
    slashes_of (w_staking w') p !! N.to_nat i = Some (SlashClaim (sc_amount c) (sc_time c) true).
Proof.
  intros id Hr Ht Hby Hown Hp (E1 & E2 & E3) (P1 & P2) Hin Hc Ho (S1 & S2).
  pose proof (C80_execute_proof _ _ _ _ _ _ x _ desc others Hr Ht Hby) as Hx.
  pose proof (run_ok _ _ _ _ _ _ Hr) as Hri. pose proof (ri_ginv _ _ _ _ _ _ Hri) as Hg.
  set (x' := StakingCtx (ge_self G) (kx_time x) (gv_delay (w_governor w)) (gv_period (w_governor w)) (kx_permit_valid x) (kx_vapp_accepts x)).
  assert (S1' : v_assets p (sk_bank (w_staking w)) * 10 ^ 18 < two256).
  { unfold staked_votes in S1. rewrite bool_decide_true in S1 by exact Hin. exact S1. }
  destruct (finish_slash_live (ge_staking G) x' p i (w_staking w) c (gi_stk _ _ _ _ _ _ Hg) (eq_sym Hown) Hin Hc Ho S1' S2) as (s' & evs & Er).
  assert (Hset : slashes_of s' p !! N.to_nat i = Some (SlashClaim (sc_amount c) (sc_time c) true)).
  { assert (Er' := Er). cbn [staking_run] in Er'. apply finish_slash_ok in Er'. cbv zeta in Er'.
    destruct Er' as (c' & d & b & Hc' & _ & _ & _ & _ & Er'). rewrite Hc in Hc'. injection Hc' as <-.
    assert (Hi : slashes_of (resolve_slash p i c (w_staking w)) p !! N.to_nat i = Some (SlashClaim (sc_amount c) (sc_time c) true)).
    { unfold resolve_slash. rewrite slashes_set, N.eqb_refl. apply list_lookup_insert. now apply lookup_lt_Some in Hc. }
    destruct Er' as [[_ ->]|(b1 & b2 & f & _ & _ & _ & _ & ->)]; exact Hi. }
  destruct (world_run G x (WExecute [GaStaking (KFinishSlash p i)] desc others) w) as [w'|e].
  - exists w'. split; [reflexivity|]. destruct Hx as (q' & (Hq' & _) & Hd). fold id in Hq', Hd.
    inversion Hd as [|? ? ? w2 ? Hd1 Hd2]; subst. inversion Hd2; subst. inversion Hd1 as [c0 w3 s evs0 v _ Hs| | | | | | | ]; subst.
    cbn [w_staking]. change (w_staking (marked_executed id q' w)) with (w_staking w) in Hs.
    change (gv_delay (w_governor (marked_executed id q' w))) with (gv_delay (w_governor w)) in Hs.
    change (gv_period (w_governor (marked_executed id q' w))) with (gv_period (w_governor w)) in Hs.
    fold x' in Hs. cbn [staking_run] in Hs. rewrite Er in Hs. injection Hs as <- _. exact Hset.
  - destruct Hx. fold id. exists q, (World s' (w_votes w) (w_governor (marked_executed id q w))).
    split; [repeat match goal with |- _ /\ _ => split end; assumption|].
    econstructor; [|constructor]. eapply ad_staking; [exact I|exact Er].
Qed.
